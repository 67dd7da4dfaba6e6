(** Half-domain LUT1D nodes in IEEE arithmetic. *)
From Coq Require Import Reals Lra Psatz.
From Flocq Require Import Core BinarySingleNaN.
From Verif Require Export PHalf.
Local Open Scope R_scope.

Section Lookup.
  Context {T : Type} {N : Num T}.
  Lemma lookup1D_entry (a : array T) n k ch :
    wellFormed1D a -> hd_error (a_dims a) = Some n -> (ch < 3)%nat -> (0 <= k < Z.of_nat n)%Z ->
    lookup1D a k ch = Ok (entry1D a (Z.to_nat k) ch).
  Proof.
    intros [d0 [d1 [rest [Hd [H0 [H1 Hl]]]]]] Hn Hc Hk. rewrite Hd in Hn. injection Hn as ->.
    unfold lookup1D, entry1D, dim. rewrite Hd. cbn [getn nth_error bind]. cbv zeta.
    destruct (Z.ltb_spec k 0) as [|_]; [lia|]. destruct (Z.leb_spec (Z.of_nat n) k) as [|_]; [lia|].
    assert (G : forall z, (0 <= z < Z.of_nat (List.length (a_vals a)))%Z -> pyget (a_vals a) z = Ok (nth (Z.to_nat z) (a_vals a) n0)).
    { intros z Hz. unfold pyget. destruct (Z.ltb_spec z 0) as [|_]; [lia|]. cbv zeta. destruct (Z.ltb_spec z 0) as [|_]; [lia|].
      rewrite (nth_error_nth' _ n0) by lia. reflexivity. }
    rewrite Nat.min_r by lia. destruct (Nat.eqb_spec d1 3) as [->|E3].
    - rewrite G by lia. do 2 f_equal. lia.
    - rewrite G by nia. destruct d1 as [|[|[|[|d1]]]]; try reflexivity. congruence.
  Qed.
End Lookup.

Section HalfLut.
  Variable L : libm.
  #[local] Hint Extern 0 (Num fl) => exact (ieeeNum L) : typeclass_instances.

  Lemma ratio_of (p h1 h2 : fl) r1 r2 :
    is_finite p = true -> is_finite h1 = true -> is_finite h2 = true -> B2R h1 = r1 -> B2R h2 = r2 ->
    Rabs r1 <= 65504 -> Rabs r2 <= 65504 -> Rabs (B2R p) < 65520 ->
    format32 (B2R p - r1) -> generic_format radix2 fexp16 (r2 - r1) -> Rabs (r2 - r1) < 65536 ->
    let diff := nf32 (nsub p h1) in let range := nf16 (nsub h2 h1) in
    is_finite diff = true /\ B2R diff = B2R p - r1 /\ is_finite range = true /\ B2R range = r2 - r1.
  Proof.
    intros Fp F1 F2 E1 E2 A1 A2 Ap G1 G2 B2 diff range. subst r1 r2.
    assert (C1 : Rabs (B2R p - B2R h1) < 200000).
    { unfold Rminus. eapply Rle_lt_trans; [apply Rabs_triang|]. rewrite Rabs_Ropp. lra. }
    destruct (big_bound _ C1) as [C2 C3].
    destruct (minus_exact L p h1 Fp F1 (f32_64 _ G1) C2) as [Fd Ed].
    assert (D1 : Rabs (B2R h2 - B2R h1) < 200000) by lra. destruct (big_bound _ D1) as [D2 D3].
    destruct (minus_exact L h2 h1 F2 F1 (f16_64 _ G2) D2) as [Fg Eg].
    unfold diff, range.
    destruct (nf32_exact L (nsub p h1)) as [F3 E3]; [exact Fd|rewrite Ed; exact G1|rewrite Ed; exact C3|].
    destruct (nf16_exact L (nsub h2 h1)) as [F4 E4]; [exact Fg|rewrite Eg; exact G2|rewrite Eg; exact B2|].
    split; [exact F3|]. split; [rewrite <- Ed; exact E3|]. split; [exact F4|]. rewrite <- Eg. exact E4.
  Qed.

  Lemma leb0 (x : fl) : is_finite x = true -> nleb n0 x = Rle_bool 0 (B2R x).
  Proof. intro F. cbn [nleb ieeeNum]. rewrite Bleb_correct; [reflexivity|vm_compute; reflexivity|exact F]. Qed.
  Lemma ltb0 (x : fl) : is_finite x = true -> nltb x n0 = Rlt_bool (B2R x) 0.
  Proof. intro F. cbn [nltb ieeeNum]. rewrite Bltb_correct; [reflexivity|exact F|vm_compute; reflexivity]. Qed.
  Lemma eqb0 (x : fl) : is_finite x = true -> neqb x n0 = Req_bool (B2R x) 0.
  Proof. intro F. cbn [neqb ieeeNum]. rewrite Beqb_correct; [reflexivity|exact F|vm_compute; reflexivity]. Qed.

  Lemma number_bound k : finiteCode k -> Rabs (halfNumber k) <= 65504.
  Proof.
    intro H. unfold halfNumber. rewrite <- magnitude_max.
    assert (G : forall u, (0 <= u < 31744)%Z -> Rabs (halfMagnitude u) <= halfMagnitude 31743).
    { intros u Hu. rewrite Rabs_pos_eq by (apply magnitude_nonneg; lia).
      destruct (Z.eq_dec u 31743) as [->|]; [lra|]. apply Rlt_le, magnitude_lt; lia. }
    destruct (Z.ltb_spec k 32768); [apply G; destruct H; lia|]. rewrite Rabs_Ropp. apply G. destruct H; lia.
  Qed.

  Definition blend (a : array fl) (ch : nat) (k1 k2 : Z) (r : fl) : fl :=
    nadd (nmul (nsub n1 r) (entryAt L a k1 ch)) (amul (a_dt a) r (entryAt L a k2 ch)).

  Lemma sign_neg (x : fl) : is_finite x = true -> B2R x < 0 -> Bsign x = true.
  Proof.
    destruct x as [s|s| |s m e B]; try discriminate; cbn; intros _ H; try lra. destruct s; [reflexivity|].
    exfalso. cbn in H. assert (0 < F2R (Float radix2 (Zpos m) e)) by (apply F2R_gt_0; reflexivity). lra.
  Qed.
  Lemma sign_pos (x : fl) : is_finite x = true -> 0 < B2R x -> Bsign x = false.
  Proof.
    destruct x as [s|s| |s m e B]; try discriminate; cbn; intros _ H; try lra. destruct s; [|reflexivity].
    exfalso. cbn in H. assert (F2R (Float radix2 (Zneg m) e) < 0) by (apply F2R_lt_0; reflexivity). lra.
  Qed.

  Lemma half_blend (a : array fl) n (q : binary_float 24 128) ch :
    wellFormed1D a -> hd_error (a_dims a) = Some n -> Z.of_nat n = 65536%Z -> (ch < 3)%nat ->
    is_finite q = true -> Rabs (B2R q) < 65520 ->
    exists k1 k2 r, lookup1DHalfDomain a (f64 q) ch = Ok (blend a ch k1 k2 r) /\ halfWeight L (f64 q) k1 k2 r.
  Proof.
    intros Hw Hn Hs Hc Fq Bq. destruct (f64_single q Fq) as [Fp Ep].
    assert (Np : is_nan (f64 q) = false) by now apply finite_not_nan.
    assert (G32 : format32 (B2R (f64 q))) by (rewrite Ep; apply generic_format_B2R).
    rewrite <- Ep in Bq. set (p := f64 q) in *. clearbody p. clear q Fq Ep.
    destruct (narrow_finite p Fp Bq) as [Fh Eh].
    destruct (f64_half (f16of p) Fh) as [F1 E1].
    destruct (bits_value (f16of p) Fh) as [Ck Ek].
    assert (Sh : Bsign (f16of p) = Bsign p) by (apply toFormat_sign; exact Np). rewrite Sh in Ck.
    set (k1 := halfBits (f16of p)) in *.
    assert (Fk1 : finiteCode k1) by (unfold finiteCode; destruct (Bsign p); lia).
    set (u := if Bsign p then (k1 - 32768)%Z else k1).
    assert (Hu : (0 <= u <= 31743)%Z) by (unfold u; destruct (Bsign p); lia).
    assert (N1 : halfNumber k1 = if Bsign p then - halfMagnitude u else halfMagnitude u).
    { unfold halfNumber, u. destruct (Bsign p); destruct (Z.ltb_spec k1 32768); try lia; reflexivity. }
    assert (Neg : negativeCode k1 = Bsign p).
    { unfold negativeCode. destruct (Bsign p); destruct (Z.leb_spec 32768 k1); try lia; reflexivity. }
    rewrite Ek in Eh. rewrite Ek in E1.
    assert (Look : forall k, (0 <= k < 65536)%Z -> lookup1D a k ch = Ok (entryAt L a k ch)).
    { intros k Hk. apply (lookup1D_entry a n k ch Hw Hn Hc). lia. }
    assert (B1 : nhbits (nf16 p) = k1) by exact (hbits_half L (f16of p)).
    assert (I0 : nf16inf p = false) by (cbn [nf16inf ieeeNum]; destruct (f16of p); try reflexivity; discriminate).
    assert (Hd : is_finite (nf16 p) = true /\ B2R (nf16 p) = halfNumber k1) by (split; [exact F1|exact E1]).
    destruct Hd as [Fh1 Eh1].
    assert (LK : forall k2, finiteCode k2 ->
        (if nltb p n0 then
           (if nleb n0 (nf32 (nsub p (nf16 p))) then Z.max 32768 (Z.min 64511 (k1 - 1)) else Z.max 32768 (Z.min 64511 (k1 + 1)))
         else
           (if nleb n0 (nf32 (nsub p (nf16 p))) then Z.max 0 (Z.min 31743 (k1 + 1)) else Z.max 0 (Z.min 31743 (k1 - 1))))%Z = k2 ->
        lookup1DHalfDomain a p ch =
        Ok (blend a ch k1 k2
          (let range := nf16 (nsub (halfValue k2) (nf16 p)) in
           if negb (neqb range n0) then nf32 (ndiv (nf32 (nsub p (nf16 p))) range) else n0))).
    { intros k2 Fk2 <-. unfold lookup1DHalfDomain.
      change (nisnan p) with (is_nan p). rewrite Np, I0. cbv zeta. rewrite B1.
      assert (Bk : forall k2, finiteCode k2 -> lookup1D a (nhbits (nhalf k2 : fl)) ch = Ok (entryAt L a k2 ch)).
      { intros k Fk. destruct (value_code k Fk) as [Fv Ev].
        destruct (narrow_finite (halfValue k) Fv) as [Fn En].
        { rewrite Ev. pose proof (number_bound k Fk). lra. }
        assert (HB : nhbits (nhalf k : fl) = k); [|rewrite HB; apply Look; destruct Fk; lia].
        change (nhbits (nhalf k : fl)) with (halfBits (f16of (halfValue k))).
        destruct (bits_value _ Fn) as [Cb Eb].
        assert (Sb : Bsign (f16of (halfValue k)) = Bsign (halfValue k)) by (apply toFormat_sign; now apply finite_not_nan).
        assert (Sk : Bsign (halfValue k) = negativeCode k).
        { clear - Fk Fv Ev. destruct (Req_dec (B2R (halfValue k)) 0) as [Z0|NZ].
          - assert (Ku : (k = 0 \/ k = 32768)%Z).
            { rewrite Ev in Z0. unfold halfNumber in Z0. destruct (Z.ltb_spec k 32768).
              - left. apply (magnitude_eq k 0); [destruct Fk; lia|lia|]. rewrite magnitude_0. exact Z0.
              - right. assert (k - 32768 = 0)%Z; [|lia]. apply (magnitude_eq (k - 32768) 0); [destruct Fk; lia|lia|]. rewrite magnitude_0. lra. }
            destruct Ku as [-> | ->]; vm_compute; reflexivity.
          - unfold negativeCode. rewrite Ev in NZ. unfold halfNumber in Ev, NZ. destruct (Z.leb_spec 32768 k); destruct (Z.ltb_spec k 32768); try lia.
            + apply sign_neg; [exact Fv|]. rewrite Ev. pose proof (magnitude_nonneg (k - 32768) ltac:(destruct Fk; lia)). lra.
            + apply sign_pos; [exact Fv|]. rewrite Ev. pose proof (magnitude_nonneg k ltac:(destruct Fk; lia)). lra. }
        rewrite Sb, Sk in Cb. rewrite En, Ev in Eb.
        assert (Fb : rnd16 (halfNumber k) = halfNumber k).
        { apply rnd_format. unfold halfNumber. destruct (Z.ltb_spec k 32768); [apply format_magnitude; destruct Fk; lia|].
          apply generic_format_opp, format_magnitude. destruct Fk; lia. }
        rewrite Fb in Eb. set (b := halfBits (f16of (halfValue k))) in *. clearbody b. unfold negativeCode in Cb. unfold halfNumber in Eb.
        destruct (Z.leb_spec 32768 k); destruct (Z.ltb_spec k 32768); try lia; cbv iota in Cb; destruct (Z.ltb_spec b 32768); try lia.
        - assert (k - 32768 = b - 32768)%Z; [|lia]. cbv iota in Eb. apply magnitude_eq; [destruct Fk; lia|lia|]. apply Ropp_eq_compat in Eb. rewrite !Ropp_involutive in Eb. exact Eb.
        - symmetry. apply magnitude_eq; [destruct Fk; lia|lia|exact Eb]. }
      destruct (nltb p n0); cbn [fst snd].
      - replace (k1 + -1)%Z with (k1 - 1)%Z by lia. replace (k1 - -1)%Z with (k1 + 1)%Z by lia.
        destruct (nleb n0 _); rewrite (Look k1) by (destruct Fk1; lia); cbn [bind]; rewrite (Bk _ Fk2); reflexivity.
      - destruct (nleb n0 _); rewrite (Look k1) by (destruct Fk1; lia); cbn [bind]; rewrite (Bk _ Fk2); reflexivity. }
    assert (Near : forall k, finiteCode k -> Rabs (B2R p - halfNumber k1) <= Rabs (B2R p - halfNumber k)).
    { intros k Fk. rewrite (Rabs_minus_sym _ (halfNumber k1)), (Rabs_minus_sym _ (halfNumber k)), Eh. apply nearest16.
      unfold halfNumber. destruct (Z.ltb_spec k 32768); [apply format_magnitude; destruct Fk; lia|].
      apply generic_format_opp, format_magnitude. destruct Fk; lia. }
    (* the distance to the first half *)
    assert (G1 : format32 (B2R p - halfNumber k1)).
    { assert (R0 : 0 <= (if Bsign p then - B2R p else B2R p) < 65520).
      { apply Rabs_def2 in Bq. destruct (Bsign p) eqn:S.
        - destruct (Rle_or_lt (B2R p) 0); [lra|]. rewrite sign_pos in S by (assumption || lra). discriminate.
        - destruct (Rle_or_lt 0 (B2R p)); [lra|]. rewrite sign_neg in S by (assumption || lra). discriminate. }
      rewrite N1. destruct (Bsign p).
      - apply format32_opp. replace (- (B2R p - - halfMagnitude u)) with (- B2R p - halfMagnitude u) by lra.
        apply distance32; [exact R0|now apply generic_format_opp|exact Hu|]. rewrite rnd16_opp, <- Eh, N1. lra.
      - apply distance32; [exact R0|exact G32|exact Hu|]. rewrite <- Eh. exact N1. }
    assert (SX : forall k2, finiteCode k2 -> generic_format radix2 fexp16 (halfNumber k2 - halfNumber k1) -> Rabs (halfNumber k2 - halfNumber k1) < 65536 ->
       let diff := nf32 (nsub p (nf16 p)) in let range := nf16 (nsub (halfValue k2) (nf16 p)) in
       is_finite diff = true /\ B2R diff = B2R p - halfNumber k1 /\ is_finite range = true /\ B2R range = halfNumber k2 - halfNumber k1).
    { intros k2 Fk2 Gd Bd. destruct (value_code k2 Fk2) as [Fv Ev]. apply ratio_of; try assumption; now apply number_bound. }
    (* the sign of the first distance does not depend on the second code *)
    assert (SD : is_finite (nf32 (nsub p (nf16 p))) = true /\ B2R (nf32 (nsub p (nf16 p))) = B2R p - halfNumber k1).
    { destruct (SX k1 Fk1) as [A [B _]]; [rewrite Rminus_diag_eq by reflexivity; apply generic_format_0|rewrite Rminus_diag_eq by reflexivity; rewrite Rabs_R0; lra|]. auto. }
    destruct SD as [Fdf Edf]. set (diff := nf32 (nsub p (nf16 p))) in *. clearbody diff.
    rewrite (leb0 diff Fdf), Edf in LK. rewrite (ltb0 p Fp) in LK.
    (* what remains when the codes are neighbours *)
    assert (FIN : forall k2, finiteCode k2 -> generic_format radix2 fexp16 (halfNumber k2 - halfNumber k1) -> Rabs (halfNumber k2 - halfNumber k1) < 65536 ->
       halfNumber k2 - halfNumber k1 <> 0 -> 0 <= (B2R p - halfNumber k1) / (halfNumber k2 - halfNumber k1) <= 1 ->
       exists g, is_finite g = true /\ B2R g = halfNumber k2 - halfNumber k1 /\
         (let range := nf16 (nsub (halfValue k2) (nf16 p)) in if negb (neqb range n0) then nf32 (ndiv diff range) else n0) = nf32 (ndiv diff g) /\
         is_finite (nf32 (ndiv diff g)) = true /\ 0 <= B2R (nf32 (ndiv diff g)) <= 1 /\ (B2R p = halfNumber k1 -> B2R (nf32 (ndiv diff g)) = 0)).
    { intros k2 Fk2 Gd Bd Nz Q. destruct (SX k2 Fk2 Gd Bd) as [_ [_ [Fg Eg]]].
      set (g := nf16 (nsub (halfValue k2) (nf16 p))) in *. exists g.
      destruct (ratio_unit L diff g Fdf Fg) as [FF [UU ZZ]]; [rewrite Eg; exact Nz|rewrite Edf, Eg; exact Q|].
      split; [exact Fg|]. split; [exact Eg|]. cbv zeta. rewrite (eqb0 g Fg), Eg, Req_bool_false by exact Nz. cbn [negb].
      split; [reflexivity|]. split; [exact FF|]. split; [exact UU|]. intro E. apply ZZ. rewrite Edf, E. lra. }
    pose proof (Rabs_def2 _ _ Bq) as [Bq1 Bq2].
    destruct (Req_dec (B2R p) 0) as [Z0|NZ].
    - (* zero *)
      assert (N0 : halfNumber k1 = 0).
      { rewrite Eh, Z0. apply rnd_0. }
      assert (U0 : u = 0%Z).
      { apply (magnitude_eq u 0); [lia|lia|]. rewrite magnitude_0. rewrite N1 in N0. destruct (Bsign p); lra. }
      set (k2 := if Bsign p then 31743%Z else 1%Z).
      assert (Fk2 : finiteCode k2) by (unfold k2, finiteCode; destruct (Bsign p); lia).
      assert (V2 : halfNumber k2 = halfMagnitude k2) by (unfold k2, halfNumber; destruct (Bsign p); reflexivity).
      destruct (FIN k2 Fk2) as [g [Fg [Eg [Er [Fr [Ur Zr]]]]]].
      { rewrite N0, Rminus_0_r, V2. apply format_magnitude. unfold k2; destruct (Bsign p); lia. }
      { rewrite N0, Rminus_0_r. pose proof (number_bound k2 Fk2). lra. }
      { rewrite N0, Rminus_0_r, V2. pose proof (magnitude_pos k2 ltac:(unfold k2; destruct (Bsign p); lia)). lra. }
      { rewrite Z0, N0. unfold Rdiv. replace (0 - 0) with 0 by lra. rewrite Rmult_0_l. lra. }
      exists k1, k2, (nf32 (ndiv diff g)). split.
      + rewrite <- Er. apply LK; [exact Fk2|]. rewrite Z0, N0. rewrite Rlt_bool_false by lra. rewrite Rle_bool_true by lra.
        unfold k2, u in *. destruct (Bsign p); lia.
      + split; [exact Fk1|]. split; [exact Fk2|]. split; [exact Fr|]. split; [exact Ur|]. split; [exact Neg|]. split; [exact Near|]. split; [exact Zr|].
        split; [intro; lra|]. split; [intro W; rewrite Z0, Rabs_R0 in W; lra|]. intros _. split; [exact N0|]. apply Zr. rewrite N0. exact Z0.
    - set (rho := if Bsign p then - B2R p else B2R p).
      assert (Rho : 0 < rho < 65520 /\ (Rlt_bool (B2R p) 0 = Bsign p)).
      { unfold rho. destruct (Bsign p) eqn:S.
        - destruct (Rle_or_lt (B2R p) 0); [|rewrite sign_pos in S by (assumption || lra); discriminate]. split; [lra|]. apply Rlt_bool_true. lra.
        - destruct (Rle_or_lt 0 (B2R p)); [|rewrite sign_neg in S by (assumption || lra); discriminate]. split; [lra|]. apply Rlt_bool_false. lra. }
      destruct Rho as [Rho Hlt]. rewrite Hlt in LK.
      assert (Er : rnd16 rho = halfMagnitude u).
      { unfold rho. destruct (Bsign p); [rewrite rnd16_opp|]; rewrite <- Eh, N1; lra. }
      assert (Pr : B2R p = if Bsign p then - rho else rho) by (unfold rho; destruct (Bsign p); lra).
      assert (Ab : Rabs (B2R p) = rho).
      { rewrite Pr. destruct (Bsign p); [rewrite Rabs_Ropp|]; apply Rabs_pos_eq; lra. }
      assert (An : Rabs (halfNumber k1) = halfMagnitude u).
      { pose proof (magnitude_nonneg u Hu). rewrite N1. destruct (Bsign p); [rewrite Rabs_Ropp|]; apply Rabs_pos_eq; lra. }
      assert (Mm : halfMagnitude u <= 65504) by (rewrite <- An; now apply number_bound).
      assert (Dir : ((if Bsign p then rho <= halfMagnitude u else rho < halfMagnitude u) /\ rho <= halfMagnitude u) \/
                    ((if Bsign p then halfMagnitude u < rho else halfMagnitude u <= rho) /\ halfMagnitude u <= rho)).
      { destruct (Bsign p); [destruct (Rle_or_lt rho (halfMagnitude u))|destruct (Rlt_or_le rho (halfMagnitude u))]; [left|right|left|right]; lra. }
      destruct Dir as [[Dir Lo]|[Dir Up]].
      + (* towards zero *)
        assert (U1 : (0 < u)%Z).
        { destruct (Z.eq_dec u 0) as [->|]; [|lia]. rewrite magnitude_0 in Lo. lra. }
        pose proof (neighbour_down u rho ltac:(lia) Er) as Nd.
        pose proof (magnitude_lt (u - 1) ltac:(lia) u ltac:(lia)) as Ml.
        set (k2 := (k1 - 1)%Z).
        assert (Fk2 : finiteCode k2) by (unfold k2, u, finiteCode in *; destruct (Bsign p); lia).
        assert (V2 : halfNumber k2 = if Bsign p then - halfMagnitude (u - 1) else halfMagnitude (u - 1)).
        { unfold halfNumber, k2, u in *. destruct (Bsign p); destruct (Z.ltb_spec (k1 - 1) 32768); try lia; first [reflexivity | do 2 f_equal; lia]. }
        assert (St : generic_format radix2 fexp16 (halfMagnitude u - halfMagnitude (u - 1))).
        { replace u with (u - 1 + 1)%Z at 1 by lia. apply format_step. lia. }
        pose proof (magnitude_nonneg (u - 1) ltac:(lia)) as M0.
        destruct (FIN k2 Fk2) as [g [Fg [Eg [Err [Fr [Ur Zr]]]]]].
        { rewrite V2, N1. destruct (Bsign p); [|apply generic_format_opp in St]; match type of St with generic_format _ _ ?e => match goal with |- generic_format _ _ ?f => replace f with e by lra; exact St end end. }
        { rewrite V2, N1. destruct (Bsign p); apply Rabs_def1; lra. }
        { rewrite V2, N1. destruct (Bsign p); lra. }
        { rewrite V2, N1, Pr.
          assert (Q : (if Bsign p then - rho else rho) - (if Bsign p then - halfMagnitude u else halfMagnitude u) = (if Bsign p then 1 else -1) * (halfMagnitude u - rho)) by (destruct (Bsign p); lra).
          assert (Q2 : (if Bsign p then - halfMagnitude (u - 1) else halfMagnitude (u - 1)) - (if Bsign p then - halfMagnitude u else halfMagnitude u) = (if Bsign p then 1 else -1) * (halfMagnitude u - halfMagnitude (u - 1))) by (destruct (Bsign p); lra).
          rewrite Q, Q2.
          replace ((if Bsign p then 1 else -1) * (halfMagnitude u - rho) / ((if Bsign p then 1 else -1) * (halfMagnitude u - halfMagnitude (u - 1))))
            with ((halfMagnitude u - rho) / (halfMagnitude u - halfMagnitude (u - 1))) by (destruct (Bsign p); field; lra).
          split; [apply Rmult_le_pos; [lra|apply Rlt_le, Rinv_0_lt_compat; lra]|].
          apply (Rmult_le_reg_r (halfMagnitude u - halfMagnitude (u - 1))); [lra|]. unfold Rdiv. rewrite Rmult_assoc, Rinv_l by lra. lra. }
        exists k1, k2, (nf32 (ndiv diff g)). split.
        * rewrite <- Err. apply LK; [exact Fk2|]. rewrite Pr, N1. unfold k2, u in *. destruct (Bsign p).
          -- rewrite Rle_bool_true by lra. lia.
          -- rewrite Rle_bool_false by lra. lia.
        * split; [exact Fk1|]. split; [exact Fk2|]. split; [exact Fr|]. split; [exact Ur|]. split; [exact Neg|]. split; [exact Near|]. split; [exact Zr|].
          split; [|split; [|intro; lra]].
          -- intros _ _. split; [right; reflexivity|]. split.
             { unfold negativeCode, k2, u in *. destruct (Bsign p); destruct (Z.leb_spec 32768 (k1 - 1)); destruct (Z.leb_spec 32768 k1); try lia; reflexivity. }
             split; [rewrite V2, N1, Pr; destruct (Bsign p); lra|].
             exists diff, g. repeat split; try assumption.
          -- intro W. rewrite Ab in W. split; [rewrite An; lra|]. apply Zr. rewrite Pr, N1. destruct (Bsign p); lra.
      + destruct (Z.eq_dec u 31743) as [Um|Um].
        * (* beyond the largest half *)
          assert (RG : neqb (nf16 (nsub (halfValue k1) (nf16 p))) n0 = true).
          { destruct (SX k1 Fk1) as [_ [_ [Fg Eg]]]; [rewrite Rminus_diag_eq by reflexivity; apply generic_format_0|rewrite Rminus_diag_eq by reflexivity; rewrite Rabs_R0; lra|].
            rewrite (eqb0 _ Fg), Eg. apply Req_bool_true. lra. }
          assert (Z1 : is_finite (n0 : fl) = true /\ B2R (n0 : fl) = 0) by (split; vm_compute; reflexivity). destruct Z1 as [Fz Ez].
          exists k1, k1, n0. split.
          -- rewrite (LK k1 Fk1); [cbv zeta; rewrite RG; reflexivity|]. rewrite Pr, N1. unfold u in *. destruct (Bsign p).
             ++ rewrite Rle_bool_false by lra. lia.
             ++ rewrite Rle_bool_true by lra. lia.
          -- split; [exact Fk1|]. split; [exact Fk1|]. split; [exact Fz|]. split; [rewrite Ez; lra|]. split; [exact Neg|]. split; [exact Near|]. split; [intros _; exact Ez|].
             rewrite Um, magnitude_max in Up. rewrite Ab.
             split; [intros _ W; lra|]. split; [intros _; split; [rewrite An, Um; apply magnitude_max|exact Ez]|intro; lra].
        * (* away from zero *)
          pose proof (neighbour_up u rho ltac:(lia) Er) as Nu.
          pose proof (magnitude_lt u ltac:(lia) (u + 1) ltac:(lia)) as Ml.
          set (k2 := (k1 + 1)%Z).
          assert (Fk2 : finiteCode k2) by (unfold k2, u, finiteCode in *; destruct (Bsign p); lia).
          assert (V2 : halfNumber k2 = if Bsign p then - halfMagnitude (u + 1) else halfMagnitude (u + 1)).
          { unfold halfNumber, k2, u in *. destruct (Bsign p); destruct (Z.ltb_spec (k1 + 1) 32768); try lia; first [reflexivity | do 2 f_equal; lia]. }
          assert (St : generic_format radix2 fexp16 (halfMagnitude (u + 1) - halfMagnitude u)) by (apply format_step; lia).
          pose proof (magnitude_nonneg u ltac:(lia)) as M0.
          assert (Mm2 : halfMagnitude (u + 1) <= 65504).
          { pose proof (number_bound k2 Fk2) as W. rewrite V2 in W. destruct (Bsign p); [rewrite Rabs_Ropp in W|]; rewrite Rabs_pos_eq in W; lra. }
          destruct (FIN k2 Fk2) as [g [Fg [Eg [Err [Fr [Ur Zr]]]]]].
          { rewrite V2, N1. destruct (Bsign p); [apply generic_format_opp in St|]; match type of St with generic_format _ _ ?e => match goal with |- generic_format _ _ ?f => replace f with e by lra; exact St end end. }
          { rewrite V2, N1. destruct (Bsign p); apply Rabs_def1; lra. }
          { rewrite V2, N1. destruct (Bsign p); lra. }
          { rewrite V2, N1, Pr.
            assert (Q : (if Bsign p then - rho else rho) - (if Bsign p then - halfMagnitude u else halfMagnitude u) = (if Bsign p then -1 else 1) * (rho - halfMagnitude u)) by (destruct (Bsign p); lra).
            assert (Q2 : (if Bsign p then - halfMagnitude (u + 1) else halfMagnitude (u + 1)) - (if Bsign p then - halfMagnitude u else halfMagnitude u) = (if Bsign p then -1 else 1) * (halfMagnitude (u + 1) - halfMagnitude u)) by (destruct (Bsign p); lra).
            rewrite Q, Q2.
            replace ((if Bsign p then -1 else 1) * (rho - halfMagnitude u) / ((if Bsign p then -1 else 1) * (halfMagnitude (u + 1) - halfMagnitude u)))
              with ((rho - halfMagnitude u) / (halfMagnitude (u + 1) - halfMagnitude u)) by (destruct (Bsign p); field; lra).
            split; [apply Rmult_le_pos; [lra|apply Rlt_le, Rinv_0_lt_compat; lra]|].
            apply (Rmult_le_reg_r (halfMagnitude (u + 1) - halfMagnitude u)); [lra|]. unfold Rdiv. rewrite Rmult_assoc, Rinv_l by lra. lra. }
          exists k1, k2, (nf32 (ndiv diff g)). split.
          -- rewrite <- Err. apply LK; [exact Fk2|]. rewrite Pr, N1. unfold k2, u in *. destruct (Bsign p).
             ++ rewrite Rle_bool_false by lra. lia.
             ++ rewrite Rle_bool_true by lra. lia.
          -- split; [exact Fk1|]. split; [exact Fk2|]. split; [exact Fr|]. split; [exact Ur|]. split; [exact Neg|]. split; [exact Near|]. split; [exact Zr|].
             split; [|split; [|intro; lra]].
             ++ intros _ _. split; [left; reflexivity|]. split.
                { unfold negativeCode, k2, u in *. destruct (Bsign p); destruct (Z.leb_spec 32768 (k1 + 1)); destruct (Z.leb_spec 32768 k1); try lia; reflexivity. }
                split; [rewrite V2, N1, Pr; destruct (Bsign p); lra|].
                exists diff, g. repeat split; try assumption.
             ++ intro W. rewrite Ab in W. assert (halfMagnitude (u + 1) = 65504) by lra.
                assert (u + 1 = 31743)%Z by (apply magnitude_eq; [lia|lia|rewrite magnitude_max; lra]).
                exfalso. assert (rho = 65504) by lra. rewrite H1 in Er. rewrite <- magnitude_max in Er. rewrite rnd16_magnitude in Er by lia.
                apply magnitude_eq in Er; lia.
  Qed.

  (** * Values that round to no finite half *)
  Lemma half_nan (a : array fl) n (p : fl) ch :
    wellFormed1D a -> hd_error (a_dims a) = Some n -> Z.of_nat n = 65536%Z -> (ch < 3)%nat -> is_nan p = true ->
    lookup1DHalfDomain a p ch = Ok (entryAt L a 31745 ch).
  Proof.
    intros Hw Hn Hs Hc Np. unfold lookup1DHalfDomain. change (nisnan p) with (is_nan p). rewrite Np.
    apply (lookup1D_entry a n 31745 ch Hw Hn Hc). lia.
  Qed.

  Lemma big_inf (p : fl) : Bleb (nofZ 65520) p = true -> f16of p = B754_infinity false.
  Proof.
    intro H. apply (toFormat_le (p2:=11) (e2:=16)) in H. change (toFormat 11 16 p) with (f16of p) in H.
    assert (E : toFormat 11 16 (nofZ 65520 : fl) = B754_infinity false).
    { assert (S : B2SF (toFormat 11 16 (nofZ 65520 : fl)) = SpecFloat.S754_infinity false) by (vm_compute; reflexivity).
      destruct (toFormat 11 16 (nofZ 65520 : fl)); cbn in S; congruence. }
    rewrite E in H. destruct (f16of p) as [s|[]| |[] m e B]; try reflexivity; try (destruct s); discriminate.
  Qed.
  Lemma small_inf (p : fl) : Bleb p (nofZ (-65520)) = true -> f16of p = B754_infinity true.
  Proof.
    intro H. apply (toFormat_le (p2:=11) (e2:=16)) in H. change (toFormat 11 16 p) with (f16of p) in H.
    assert (E : toFormat 11 16 (nofZ (-65520) : fl) = B754_infinity true).
    { assert (S : B2SF (toFormat 11 16 (nofZ (-65520) : fl)) = SpecFloat.S754_infinity true) by (vm_compute; reflexivity).
      destruct (toFormat 11 16 (nofZ (-65520) : fl)); cbn in S; congruence. }
    rewrite E in H. destruct (f16of p) as [s|[]| |[] m e B]; try reflexivity; try (destruct s); discriminate.
  Qed.

  Lemma half_big (a : array fl) n (p : fl) ch :
    wellFormed1D a -> hd_error (a_dims a) = Some n -> Z.of_nat n = 65536%Z -> (ch < 3)%nat -> Bleb (nofZ 65520) p = true ->
    lookup1DHalfDomain a p ch = Ok (entryAt L a 31744 ch).
  Proof.
    intros Hw Hn Hs Hc Hb. unfold lookup1DHalfDomain. pose proof (big_inf p Hb) as I. pose proof (Bleb_not_nan _ _ Hb) as [_ Np].
    change (nisnan p) with (is_nan p). rewrite Np.
    assert (E : nf16inf p = true) by (cbn [nf16inf ieeeNum]; rewrite I; reflexivity). rewrite E.
    assert (E2 : nltb p n0 = false).
    { cbn [nltb ieeeNum]. destruct (Bltb p n0) eqn:B; [|reflexivity]. apply Bltb_le in B.
      pose proof (Bleb_trans _ _ _ Hb B) as C. vm_compute in C. discriminate. }
    rewrite E2. apply (lookup1D_entry a n 31744 ch Hw Hn Hc). lia.
  Qed.
  Lemma half_small (a : array fl) n (p : fl) ch :
    wellFormed1D a -> hd_error (a_dims a) = Some n -> Z.of_nat n = 65536%Z -> (ch < 3)%nat -> Bleb p (nofZ (-65520)) = true ->
    lookup1DHalfDomain a p ch = Ok (entryAt L a 64512 ch).
  Proof.
    intros Hw Hn Hs Hc Hb. unfold lookup1DHalfDomain. pose proof (small_inf p Hb) as I. pose proof (Bleb_not_nan _ _ Hb) as [Np _].
    change (nisnan p) with (is_nan p). rewrite Np.
    assert (E : nf16inf p = true) by (cbn [nf16inf ieeeNum]; rewrite I; reflexivity). rewrite E.
    assert (E2 : nltb p n0 = true).
    { cbn [nltb ieeeNum]. destruct (Bltb p n0) eqn:B; [reflexivity|]. apply Bltb_false_le in B; [|exact Np|vm_compute; reflexivity].
      pose proof (Bleb_trans _ _ _ B Hb) as C. vm_compute in C. discriminate. }
    rewrite E2. apply (lookup1D_entry a n 64512 ch Hw Hn Hc). lia.
  Qed.

  (** The four cases are all there are. *)
  Lemma half_cases (p : fl) :
    is_nan p = true \/ Bleb (nofZ 65520) p = true \/ Bleb p (nofZ (-65520)) = true \/ (is_finite p = true /\ Rabs (B2R p) < 65520).
  Proof.
    destruct (ofZ_exact L 65520) as [F1 E1]; [lia|]. destruct (ofZ_exact L (-65520)) as [F2 E2]; [lia|].
    destruct (is_finite p) eqn:F.
    - destruct (Rle_or_lt 65520 (B2R p)) as [H|H].
      + right; left. rewrite Bleb_correct by assumption. apply Rle_bool_true. rewrite E1. exact H.
      + destruct (Rle_or_lt (B2R p) (-65520)) as [H'|H'].
        * right; right; left. rewrite Bleb_correct by assumption. apply Rle_bool_true. rewrite E2. exact H'.
        * right; right; right. split; [reflexivity|]. apply Rabs_def1; lra.
    - destruct p as [s|[]| |s m e B]; try discriminate.
      + right; right; left. vm_compute. reflexivity.
      + right; left. vm_compute. reflexivity.
      + left. reflexivity.
  Qed.

  Definition halfFun (a : array fl) (dIn : aval) (ch : nat) (x : fl) : fl :=
    nf32 (match lookup1DHalfDomain a (nf32 (bitDepthToNormalized x dIn)) ch with Ok y => y | Err _ => n0 end).

  Lemma half_total (a : array fl) n y ch :
    wellFormed1D a -> hd_error (a_dims a) = Some n -> Z.of_nat n = 65536%Z -> (ch < 3)%nat ->
    exists z, lookup1DHalfDomain a (nf32 y) ch = Ok z.
  Proof.
    intros Hw Hn Hs Hc. destruct (half_cases (nf32 y)) as [C|[C|[C|[F B]]]].
    - eexists. now apply (half_nan a n).
    - eexists. now apply (half_big a n).
    - eexists. now apply (half_small a n).
    - cbn [nf32 ieeeNum] in *. assert (Fq : is_finite (f32of y) = true).
      { unfold f64 in F. destruct (f32of y); try reflexivity; discriminate. }
      destruct (f64_single _ Fq) as [_ E]. rewrite E in B.
      destruct (half_blend a n (f32of y) ch Hw Hn Hs Hc Fq B) as [k1 [k2 [r [H _]]]]. eexists. exact H.
  Qed.

  Lemma half_acts c h dIn a : isHalfLUT h dIn a -> actsPerChannel c (Node h BLUT1D) (halfFun a dIn).
  Proof.
    intros [Hi [[d Ho] [Hc [Hf [Hm [Ha [Hw [n [Hn Hs]]]]]]]]] st values Hst.
    cbn [nodeProcess]. rewrite lut1d_form by lia. unfold dgetE. rewrite Hi, Ho. cbn [bind]. rewrite Ha, Hm, Hf.
    assert (Ec : match dget (h_attrs h) "interpolation" with Some v => aval_eqb v (AStr "cubic") | None => false end = false).
    { destruct (dget (h_attrs h) "interpolation") as [v|]; [|reflexivity]. destruct (aval_eqb v _) eqn:E; [|reflexivity].
      destruct v; cbn in E; try discriminate. apply String.eqb_eq in E. congruence. }
    rewrite Ec. apply pixelwise_colour; [assumption|]. intros px Hl. rewrite lut1dPixel_form by assumption.
    apply (mapMi3 _ (halfFun a dIn)); [lia|].
    intros k x Hk. unfold lut1dElem, lookup1, stage, halfFun. cbn [bind].
    destruct (half_total a n (bitDepthToNormalized x dIn) k Hw Hn Hs Hk) as [z ->]. reflexivity.
  Qed.

  Theorem half_domain c h dIn a :
    isHalfLUT h dIn a ->
    exists f, actsPerChannel c (Node h BLUT1D) f /\
      forall ch x, (ch < 3)%nat ->
        let p := nf32 (bitDepthToNormalized x dIn) in
        (is_nan p = true -> f ch x = nf32 (entryAt L a 31745 ch)) /\
        (Bleb (nofZ 65520) p = true -> f ch x = nf32 (entryAt L a 31744 ch)) /\
        (Bleb p (nofZ (-65520)) = true -> f ch x = nf32 (entryAt L a 64512 ch)) /\
        (is_finite p = true -> Rabs (B2R p) < 65520 ->
           exists k1 k2 r, halfWeight L p k1 k2 r /\
             f ch x = nf32 (nadd (nmul (nsub n1 r) (entryAt L a k1 ch)) (amul (a_dt a) r (entryAt L a k2 ch)))).
  Proof.
    intro H. exists (halfFun a dIn). split; [now apply half_acts|].
    destruct H as [Hi [[d Ho] [Hc [Hf [Hm [Ha [Hw [n [Hn Hs]]]]]]]]]. intros ch x Hch. cbv zeta. unfold halfFun.
    repeat split; intros.
    - rewrite (half_nan a n _ ch Hw Hn Hs Hch H). reflexivity.
    - rewrite (half_big a n _ ch Hw Hn Hs Hch H). reflexivity.
    - rewrite (half_small a n _ ch Hw Hn Hs Hch H). reflexivity.
    - cbn [nf32 ieeeNum] in *. assert (Fq : is_finite (f32of (bitDepthToNormalized x dIn)) = true).
      { unfold f64 in H. destruct (f32of _); try reflexivity; discriminate. }
      destruct (f64_single _ Fq) as [_ E]. rewrite E in H0.
      destruct (half_blend a n _ ch Hw Hn Hs Hch Fq H0) as [k1 [k2 [r [El Wt]]]]. exists k1, k2, r. split; [exact Wt|].
      rewrite El. reflexivity.
  Qed.

  (** * Exact halfs *)
  Lemma mult_one (x : fl) : Bmult mode_NE n1 x = x.
  Proof.
    assert (F1 : is_finite (n1 : fl) = true /\ B2R (n1 : fl) = 1 /\ Bsign (n1 : fl) = false).
    { split; [vm_compute; reflexivity|]. split; [destruct (ofZ_exact L 1) as [_ E]; [lia|exact E]|vm_compute; reflexivity]. }
    destruct F1 as [F1 [E1 S1]].
    destruct (is_finite x) eqn:F.
    - pose proof (Bmult_correct 53 1024 _ _ mode_NE n1 x) as M. rewrite E1, Rmult_1_l in M.
      change (round_mode mode_NE) with ZnearestE in M.
      change (round radix2 (SpecFloat.fexp 53 1024) ZnearestE (B2R x)) with (rnd (p:=53) (e:=1024) (B2R x)) in M. rewrite rnd_id in M.
      rewrite Rlt_bool_true in M by (apply abs_B2R_lt_emax). destruct M as [M1 [M2 M3]].
      rewrite F1, F in M2. apply B2R_Bsign_inj; try assumption. rewrite M3 by (now apply finite_not_nan). rewrite S1. destruct (Bsign x); reflexivity.
    - destruct x as [|[]| |]; try discriminate; vm_compute; reflexivity.
  Qed.
  Lemma one_minus_zero s : Bminus mode_NE (n1 : fl) (B754_zero s) = n1.
  Proof.
    assert (S : B2SF (Bminus mode_NE (n1 : fl) (B754_zero s)) = B2SF (n1 : fl)) by (destruct s; vm_compute; reflexivity).
    apply B2SF_inj. exact S.
  Qed.
  Lemma zero_weight a r v w : is_finite r = true -> B2R r = 0 -> is_finite w = true ->
    sameNumber (nadd (nmul (nsub n1 r) v) (amul (a_dt (a : array fl)) r w)) v.
  Proof.
    intros Fr Zr Fw.
    assert (Er : exists s, r = B754_zero s).
    { clear - Fr Zr. destruct r as [s|s| |s m e B]; [now exists s|discriminate Fr|discriminate Fr|]. exfalso. cbn in Zr. apply eq_0_F2R in Zr. destruct s; discriminate. }
    destruct Er as [s ->]. cbn [nadd nmul nsub ieeeNum]. rewrite one_minus_zero, mult_one.
    assert (Ea : exists s', amul (a_dt a) (B754_zero s) w = B754_zero s').
    { unfold amul. cbn [nmul nf32 ieeeNum]. assert (M : exists s', Bmult mode_NE (B754_zero s : fl) w = B754_zero s') by (destruct w; try discriminate; eexists; reflexivity).
      destruct M as [s' ->]. exists s'. destruct (a_dt a); reflexivity. }
    destruct Ea as [s' ->]. destruct v as [sv|sv| |sv m e B].
    - right. cbn. destruct (Bool.eqb sv s'); cbn; auto.
    - left. reflexivity.
    - left. reflexivity.
    - left. reflexivity.
  Qed.
  Lemma same_f32 x y : sameNumber x y -> sameNumber (nf32 x) (nf32 y).
  Proof.
    intros [->|[Fx [Fy [Zx Zy]]]]; [left; reflexivity|].
    assert (Z : forall z : fl, is_finite z = true -> B2R z = 0 -> exists s, z = B754_zero s).
    { intros z Fz Zz. destruct z as [s|s| |s m e B]; try discriminate; [now exists s|]. exfalso. cbn in Zz. apply eq_0_F2R in Zz. destruct s; discriminate. }
    destruct (Z x Fx Zx) as [s ->]. destruct (Z y Fy Zy) as [s' ->]. right. cbn. auto.
  Qed.

  Lemma code_of_number k1 k : finiteCode k1 -> finiteCode k -> negativeCode k1 = negativeCode k -> halfNumber k1 = halfNumber k -> k1 = k.
  Proof.
    intros H1 H S E. unfold negativeCode, halfNumber in *. destruct H1, H; destruct (Z.leb_spec 32768 k1); destruct (Z.leb_spec 32768 k); try discriminate; try lia;
      destruct (Z.ltb_spec k1 32768); destruct (Z.ltb_spec k 32768); try lia; cbv iota in E.
    - apply magnitude_eq; [lia|lia|exact E].
    - apply Ropp_eq_compat in E. rewrite !Ropp_involutive in E. apply magnitude_eq in E; lia.
  Qed.

  (** The blend at an exact half. *)
  Lemma exact_blend p k1 k2 r k : halfWeight L p k1 k2 r -> finiteCode k -> B2R p = halfNumber k -> Bsign p = negativeCode k ->
    k1 = k /\ is_finite r = true /\ B2R r = 0.
  Proof.
    intros [F1 [F2 [Fr [_ [Sg [Near [Zr _]]]]]]] Fk Ek Sk.
    assert (E : halfNumber k1 = halfNumber k).
    { pose proof (Near k Fk) as N. rewrite Ek in N. replace (halfNumber k - halfNumber k) with 0 in N by lra. rewrite Rabs_R0 in N.
      pose proof (Rabs_pos (halfNumber k - halfNumber k1)). assert (A : Rabs (halfNumber k - halfNumber k1) = 0) by lra.
      apply Rabs_eq_R0 in A. lra. }
    split; [apply code_of_number; congruence|]. split; [exact Fr|]. apply Zr. congruence.
  Qed.

  Theorem half_exact c h dIn a :
    isHalfLUT h dIn a ->
    exists f, actsPerChannel c (Node h BLUT1D) f /\
      forall ch x k, (ch < 3)%nat -> finiteCode k ->
        (forall j, finiteCode j -> is_finite (entryAt L a j ch) = true) ->
        let p := nf32 (bitDepthToNormalized x dIn) in
        is_finite p = true -> B2R p = halfNumber k -> Bsign p = negativeCode k ->
        sameNumber (f ch x) (nf32 (entryAt L a k ch)).
  Proof.
    intro H. destruct (half_domain c h dIn a H) as [f [Hf Hs]]. exists f. split; [exact Hf|].
    intros ch x k Hc Fk He p Fp Ep Sp. destruct (Hs ch x Hc) as [_ [_ [_ D]]]. fold p in D.
    destruct D as [k1 [k2 [r [W ->]]]]; [exact Fp|rewrite Ep; pose proof (number_bound k Fk); lra|].
    destruct (exact_blend p k1 k2 r k W Fk Ep Sp) as [-> [Fr Zr]]. apply same_f32, zero_weight; [exact Fr|exact Zr|].
    apply He. destruct W as [_ [F2 _]]. exact F2.
  Qed.

  (** * A non-finite neighbour *)
  (** Entry 1 at the code of 1.0, infinity at all the others. *)
  Definition spikeArray : array fl :=
    {| a_dims := [(256 * 256)%nat; 1%nat];
       a_vals := List.map (fun k => if (Z.of_nat k =? 15360)%Z then n1 else B754_infinity false) (seq 0 (256 * 256));
       a_dt := DtList; a_raw := false; a_int := false; a_enc := "string" |}.
  Definition halfHeader (a : array fl) : header fl :=
    {| h_attrs := [("inBitDepth", AStr "32f"); ("outBitDepth", AStr "32f"); ("halfDomain", ABool true)];
       h_vals := []; h_dyn := []; h_elems := [EArray a] |}.
  Lemma halfHeader_is a : wellFormed1D a -> hd_error (a_dims a) = Some (256 * 256)%nat -> isHalfLUT (halfHeader a) (AStr "32f") a.
  Proof.
    intros Hw Hn. repeat split; try reflexivity; try exact Hw; try discriminate.
    - eexists. reflexivity.
    - exists (256 * 256)%nat. split; [exact Hn|]. rewrite Nat2Z.inj_mul. reflexivity.
  Qed.
  Lemma spike_wf : wellFormed1D spikeArray.
  Proof.
    exists (256 * 256)%nat, 1%nat, []. split; [reflexivity|]. split; [lia|]. split; [lia|].
    cbn [spikeArray a_vals]. rewrite map_length, seq_length. lia.
  Qed.
  Lemma spike_entry k ch : (0 <= k < 65536)%Z -> entryAt L spikeArray k ch = if (k =? 15360)%Z then n1 else B754_infinity false.
  Proof.
    intro Hk. unfold entryAt, entry1D, spikeArray. cbn [a_dims a_vals].
    set (g := fun i : nat => _). rewrite (nth_indep _ _ (g 0%nat)) by (rewrite map_length, seq_length; lia).
    rewrite map_nth, seq_nth by lia. unfold g. rewrite Nat.add_0_l, Z2Nat.id by lia. reflexivity.
  Qed.
  Lemma half_spike c : exists h a k x,
    isHalfLUT h (AStr "32f") a /\ finiteCode k /\ is_finite x = true /\ B2R x = halfNumber k /\ Bsign x = negativeCode k /\
    is_finite (entryAt L a k 0) = true /\
    exists f, actsPerChannel c (Node h BLUT1D) f /\ is_nan (f 0%nat x) = true.
  Proof.
    set (a := spikeArray). exists (halfHeader a), a, 15360%Z, (n1 : fl).
    assert (Hi : isHalfLUT (halfHeader a) (AStr "32f") a) by (apply halfHeader_is; [exact spike_wf|reflexivity]).
    assert (Fk : finiteCode 15360) by (left; lia).
    assert (Fx : is_finite (n1 : fl) = true) by (vm_compute; reflexivity).
    assert (Ex : B2R (n1 : fl) = halfNumber 15360).
    { destruct (ofZ_exact L 1) as [_ E]; [lia|]. change (B2R (n1 : fl) = 1) in E. rewrite E. unfold halfNumber, halfMagnitude. cbn. lra. }
    assert (Sx : Bsign (n1 : fl) = negativeCode 15360) by (vm_compute; reflexivity).
    split; [exact Hi|]. split; [exact Fk|]. split; [exact Fx|]. split; [exact Ex|]. split; [exact Sx|].
    split; [unfold a; rewrite spike_entry by lia; exact Fx|].
    destruct (half_domain c _ _ _ Hi) as [f [Hf Hs]]. exists f. split; [exact Hf|].
    destruct (Hs 0%nat n1 ltac:(lia)) as [_ [_ [_ D]]].
    assert (Ep : nf32 (bitDepthToNormalized (n1 : fl) (AStr "32f")) = n1).
    { apply B2SF_inj. vm_compute. reflexivity. }
    rewrite Ep in D. destruct D as [k1 [k2 [r [W E]]]]; [exact Fx|rewrite Ex; pose proof (number_bound 15360 Fk); lra|].
    rewrite E. destruct (exact_blend _ _ _ _ 15360 W Fk Ex Sx) as [-> [Fr Zr]].
    destruct W as [_ [F2 [_ [_ [_ [_ [_ [W _]]]]]]]].
    assert (P1 : halfNumber 15360 = 1) by (unfold halfNumber, halfMagnitude; cbn; lra).
    rewrite Ex, P1 in W. destruct W as [K _]; [lra|rewrite Rabs_R1; lra|].
    assert (E2 : entryAt L a k2 0 = B754_infinity false).
    { unfold a. rewrite spike_entry by (destruct F2; lia). destruct (Z.eqb_spec k2 15360); [lia|reflexivity]. }
    rewrite E2.
    assert (Er : exists s, r = B754_zero s).
    { clear - Fr Zr. destruct r as [s|s| |s m e B]; [now exists s|discriminate Fr|discriminate Fr|]. exfalso. cbn in Zr. apply eq_0_F2R in Zr. destruct s; discriminate. }
    destruct Er as [s ->]. unfold amul. cbn [nadd nmul nsub nf32 ieeeNum Bmult].
    destruct (a_dt a); cbn [f64 f32of]; destruct (Bmult mode_NE _ (entryAt L a 15360 0)); reflexivity.
  Qed.

  (** * NaN and infinities through a linear LUT1D *)
  Lemma nofZ_pos z : (1 <= z)%Z ->
    (nofZ z : fl) = B754_infinity false \/ exists m e B, (nofZ z : fl) = B754_finite false m e B.
  Proof.
    intro Hz. pose proof (binary_normalize_correct 53 1024 _ _ mode_NE z 0 false) as C. cbn zeta in C.
    cbn [nofZ ieeeNum]. set (x := binary_normalize _ _ _ _ _ _ _ _) in *.
    assert (E : F2R (Float radix2 z 0) = IZR z) by (unfold F2R; cbn; lra). rewrite E in C.
    assert (P : 1 <= round radix2 (SpecFloat.fexp 53 1024) (round_mode mode_NE) (IZR z)).
    { apply round_ge_generic; [typeclasses eauto|typeclasses eauto| |now apply IZR_le].
      change 1 with (bpow radix2 0). apply generic_format_bpow. vm_compute. discriminate. }
    destruct (Rlt_bool _ _).
    - destruct C as [C1 [C2 _]]. right. clearbody x. destruct x as [s|s| |s m e B]; [exfalso; rewrite <- C1 in P; cbn in P; lra|discriminate|discriminate|].
      destruct s; [exfalso|now exists m, e, B]. rewrite <- C1 in P. cbn in P.
      assert (N : F2R (Float radix2 (Z.neg m) e) < 0) by (apply F2R_lt_0; reflexivity). lra.
    - left. apply B2SF_inj. rewrite C. rewrite Rlt_bool_false by (apply IZR_le; lia). reflexivity.
  Qed.

  Definition linFun (a : array fl) (dIn : aval) (ch : nat) (x : fl) : fl :=
    nf32 (match lookup1DLinear a (nf32 (bitDepthToNormalized x dIn)) ch with Ok y => y | Err _ => n0 end).

  Lemma linear_total (a : array fl) n y ch :
    wellFormed1D a -> hd_error (a_dims a) = Some n -> (ch < 3)%nat -> exists z, lookup1DLinear a y ch = Ok z.
  Proof.
    intros Hw Hn Hc. exact (lookup1DLinear_ok a y ch Hw).
  Qed.

  Lemma linear_acts c h dIn a n : isLinearLUT h dIn a n -> actsPerChannel c (Node h BLUT1D) (linFun a dIn).
  Proof.
    intros [Hi [[d Ho] [Hc [Hf [Hm [Ha [Hw Hn]]]]]]] st values Hst.
    cbn [nodeProcess]. rewrite lut1d_form by lia. unfold dgetE. rewrite Hi, Ho. cbn [bind]. rewrite Ha, Hm, Hf.
    assert (Ec : match dget (h_attrs h) "interpolation" with Some v => aval_eqb v (AStr "cubic") | None => false end = false).
    { destruct (dget (h_attrs h) "interpolation") as [v|]; [|reflexivity]. destruct (aval_eqb v _) eqn:E; [|reflexivity].
      destruct v; cbn in E; try discriminate. apply String.eqb_eq in E. congruence. }
    rewrite Ec. apply pixelwise_colour; [assumption|]. intros px Hl. rewrite lut1dPixel_form by assumption.
    apply (mapMi3 _ (linFun a dIn)); [lia|].
    intros k x Hk. unfold lut1dElem, lookup1, stage, linFun. cbn [bind].
    destruct (linear_total a n (nf32 (bitDepthToNormalized x dIn)) k Hw Hn Hk) as [z ->]. reflexivity.
  Qed.

  Theorem linear_nonfinite c h dIn a n :
    isLinearLUT h dIn a n ->
    exists f, actsPerChannel c (Node h BLUT1D) f /\
      forall ch x, (ch < 3)%nat ->
        let p := nf32 (bitDepthToNormalized x dIn) in
        (is_nan p = true -> f ch x = B754_nan) /\
        (forall s, p = B754_infinity s -> f ch x = if (n <=? 1)%nat then B754_nan else B754_infinity s).
  Proof.
    intro H. exists (linFun a dIn). split; [now apply (linear_acts c h dIn a n)|].
    destruct H as [Hi [[d Ho] [Hc [Hf [Hm [Ha [Hw Hn]]]]]]]. intros ch x Hch. cbv zeta. unfold linFun, lookup1DLinear, dim.
    assert (H1 : (1 <= n)%nat).
    { destruct Hw as [d0 [d1 [rest [Hd [H0 _]]]]]. rewrite Hd in Hn. injection Hn as ->. exact H0. }
    destruct (a_dims a) as [|n' rest]; [discriminate|]. injection Hn as ->. cbn [getn nth_error bind].
    split.
    - intro Np. destruct (nf32 (bitDepthToNormalized x dIn)); try discriminate. reflexivity.
    - intros s ->. cbn [nmul ieeeNum].
      destruct (Nat.leb_spec n 1) as [Hl|Hl].
      + replace (Z.of_nat n - 1)%Z with 0%Z by lia. destruct s; reflexivity.
      + destruct (nofZ_pos (Z.of_nat n - 1)%Z) as [E|[m [e [B E]]]]; [lia| |].
        * rewrite E. destruct s; reflexivity.
        * rewrite E. destruct s; reflexivity.
  Qed.
End HalfLut.
