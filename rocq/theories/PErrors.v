(** Rounding errors of a whole list. *)
From Coq Require Import Reals Lra Lia ZArith List String Psatz Arith.
From Flocq Require Import Core BinarySingleNaN.
From Verif Require Import SpecErrors SpecReadBack PBase PFacts PAct PChain PList PSampling PReal PIeee PIeeeArith PMatrix PLut1D PHalfLut PLut3D PSlope3D PRound PClose PCloseLut PClose3D PReadBack PReadBack3.
Import ListNotations.
Local Open Scope string_scope.
Local Open Scope list_scope.
Local Open Scope R_scope.

(** * The exact node *)
Lemma exact_lastArray es : lastArray (map exactElement es) = option_map exactArray (lastArray es).
Proof.
  induction es as [|x es IH]; [reflexivity|]. destruct x; cbn [map exactElement lastArray]; try exact IH.
  rewrite IH. destruct (lastArray es); reflexivity.
Qed.
Lemma exact_indexMaps es : indexMaps es = [] -> indexMaps (map exactElement es) = [].
Proof.
  induction es as [|x es IH]; [reflexivity|]. destruct x; cbn [map exactElement indexMaps]; intro H; try (now apply IH). discriminate.
Qed.
Lemma exact_notBypassed n : notBypassed (exactNode n) = notBypassed n.
Proof. destruct n as [h b]. reflexivity. Qed.
Lemma exact_procs l : procs_of (exactList l) = map exactNode (procs_of l).
Proof. destruct l; reflexivity. Qed.

(** Functions of three samples. *)
Lemma three {A} (l : list A) : List.length l = 3%nat -> exists x y z, l = [x; y; z].
Proof. destruct l as [|x [|y [|z [|w l]]]]; try discriminate. intros _. now exists x, y, z. Qed.
Lemma sized3 B x y z : sized B [x; y; z] <-> (is_finite x = true /\ Rabs (B2R x) <= B) /\ (is_finite y = true /\ Rabs (B2R y) <= B) /\ (is_finite z = true /\ Rabs (B2R z) <= B).
Proof.
  split.
  - intros [_ F]. inversion F as [|? ? F1 F']; subst. inversion F' as [|? ? F2 F'']; subst. inversion F'' as [|? ? F3 _]; subst. auto.
  - intros (F1 & F2 & F3). split; [reflexivity|]. constructor; [exact F1|]. constructor; [exact F2|]. constructor; [exact F3|constructor].
Qed.
Lemma apart3 e x y z l : apart e [x; y; z] l -> exists x' y' z', l = [x'; y'; z'] /\ Rabs (B2R x - x') <= e /\ Rabs (B2R y - y') <= e /\ Rabs (B2R z - z') <= e.
Proof.
  intro H. inversion H as [|? x' ? l1 H1 H']; subst. inversion H' as [|? y' ? l2 H2 H'']; subst. inversion H'' as [|? z' ? l3 H3 H4]; subst. inversion H4; subst.
  exists x', y', z'. auto.
Qed.
Lemma apart3_intro e x y z x' y' z' : Rabs (B2R x - x') <= e -> Rabs (B2R y - y') <= e -> Rabs (B2R z - z') <= e -> apart e [x; y; z] [x'; y'; z'].
Proof. intros. constructor; [assumption|]. constructor; [assumption|]. constructor; [assumption|constructor]. Qed.
Lemma perColour3 {T} {N : Num T} f (x y z : T) : perColour 3 f [x; y; z] = let '(r, g, b) := f x y z in [r; g; b].
Proof. unfold perColour, indexed. cbn. destruct (f x y z) as [[r g] b]. reflexivity. Qed.
Lemma perPixel3 {T} {N : Num T} F (x y z : T) : perPixel 3 F [x; y; z] = [nth 0 (F [x; y; z]) n0; nth 1 (F [x; y; z]) n0; nth 2 (F [x; y; z]) n0].
Proof. reflexivity. Qed.

(** * Chains *)
Section Chain.
  Variable L : libm.
  #[local] Hint Extern 0 (Num fl) => exact (ieeeNum L) : typeclass_instances.

  Lemma budget_chain c ns B e B' e' : budget c ns B e B' e' -> forall hb prev prev' px px', sized B px -> apart e px px' ->
    exists ys ys', chainOut hb (nodeProcess c) prev ns 3 px = Ok ys /\ chainOut hb (nodeProcess c) prev' (map exactNode ns) 3 px' = Ok ys' /\
      sized B' ys /\ apart e' ys ys'.
  Proof.
    induction 1 as [B e|n ns B e K E B1 B' e' Nb Fo _ IH]; intros hb prev prev' px px' S A; [exists px, px'; auto|].
    destruct (Fo px px' e S A) as (ys & ys' & O & O' & S1 & A1). cbn [map chainOut]. unfold skips. rewrite exact_notBypassed, Nb. cbn [orb negb].
    destruct (outcome_ok _ _ O) as (o & -> & <-). destruct (outcome_ok _ _ O') as (o' & -> & <-). cbn [bind]. now apply IH.
  Qed.

  Theorem list_follows c l B B' e' : B <= bpow radix2 126 ->
    let e := bpow radix2 (-23) * B + bpow radix2 (-149) in
    budget c (procs_of l) (B + e) e B' e' ->
    forall px, sized B px ->
      exists ys ys', colourThrough c l px = Ok ys /\ colourThrough c (exactList l) (map B2R px) = Ok ys' /\ sized B' ys /\ apart e' ys ys'.
  Proof.
    intros HB e Hb px Hs. destruct (three px (proj1 Hs)) as (x & y & z & ->). apply sized3 in Hs.
    assert (K : forall v : fl, is_finite v = true /\ Rabs (B2R v) <= B -> (is_finite (nf32 v) = true /\ Rabs (B2R (nf32 v)) <= B + e) /\ Rabs (B2R (nf32 v) - B2R v) <= e).
    { intros v [F Bv]. change (nf32 v) with (f64 (f32of v)).
      destruct (near_stored v (B2R v) F (self_near v F)) as [F' S]; [lra|].
      assert (S' : Rabs (B2R (f64 (f32of v)) - B2R v) <= e).
      { eapply Rle_trans; [exact S|]. unfold e. apply Rplus_le_compat_r, Rmult_le_compat_l; [apply bpow_ge_0|exact Bv]. }
      split; [|exact S']. split; [exact F'|]. replace (B2R (f64 (f32of v))) with ((B2R (f64 (f32of v)) - B2R v) + B2R v) by ring.
      eapply Rle_trans; [apply Rabs_triang|]. lra. }
    destruct Hs as (H1 & H2 & H3). destruct (K x H1) as [Sx Ax]. destruct (K y H2) as [Sy Ay]. destruct (K z H3) as [Sz Az].
    unfold colourThrough. rewrite !runList_outcome by reflexivity. rewrite !list_outcome, exact_procs. cbn [map].
    apply (budget_chain _ _ _ _ _ _ Hb); [apply sized3; auto|]. now apply apart3_intro.
  Qed.
End Chain.

(** * Matrix *)
Section MatrixStage.
  Variable L : libm.
  #[local] Hint Extern 0 (Num fl) => exact (ieeeNum L) : typeclass_instances.

  Lemma apart_pos e x l l' : apart e (x :: l) l' -> 0 <= e.
  Proof. intro H. inversion H; subst. eapply Rle_trans; [apply Rabs_pos|eassumption]. Qed.

  Lemma sumTo3 f : sumTo 3 f = f 0%nat + f 1%nat + f 2%nat.
  Proof. cbn. ring. Qed.

  Theorem matrix_follows c (h : header fl) coef offset B K O :
    isMatrixOf h 3 coef offset ->
    (forall i j, (i < 3)%nat -> (j < 3)%nat -> is_finite (coef i j) = true) ->
    (forall i, (i < 3)%nat -> sumTo 3 (fun j => Rabs (B2R (coef i j))) <= K) ->
    match offset with None => O = 0 | Some o => forall i, (i < 3)%nat -> is_finite (o i) = true /\ Rabs (B2R (o i)) <= O end ->
    K * B + O <= bpow radix2 125 ->
    follows c (Node h BMatrix) B K (6 * unit32 (K * B + O)) (K * B + O + 6 * unit32 (K * B + O)).
  Proof.
    intros H Fc HK HO HS px px' e Hs Ha. set (S := K * B + O) in *.
    destruct (matrix_close L c h 3 coef offset 3 H ltac:(lia) ltac:(lia) ltac:(lia)) as (F & Ac & Cl).
    set (off' := fun i => match offset with None => 0 | Some o => B2R (o i) end).
    assert (H' : isMatrix (exactHeader h) 3 (fun i j => B2R (coef i j)) off').
    { destruct H as (a & cols & rest & Hd & Hl & Hdim & Hlen & Hc & Ho). exists (exactArray a), cols, rest.
      split; [exact Hd|]. split; [cbn [exactHeader h_elems]; rewrite exact_lastArray, Hl; reflexivity|]. split; [exact Hdim|].
      split; [cbn [exactArray a_vals]; now rewrite map_length|]. split.
      - intros i j Hi Hj. cbn [exactArray a_vals]. change 0 with (B2R (B754_zero false : fl)). rewrite map_nth. f_equal. exact (Hc i j Hi Hj).
      - unfold off'. destruct offset as [o|]; [|left; split; [exact Ho|reflexivity]]. right. destruct Ho as [Hcol Ho]. split; [exact Hcol|].
        intros i Hi. cbn [exactArray a_vals]. change 0 with (B2R (B754_zero false : fl)). rewrite map_nth. f_equal. exact (Ho i Hi). }
    pose proof (matrix_acts c (exactHeader h) 3 _ off' 3 H' ltac:(lia) ltac:(lia)) as Ac'.
    destruct (three px (proj1 Hs)) as (x & y & z & ->). pose proof (apart_pos _ _ _ _ Ha) as He. apply sized3 in Hs. destruct (apart3 _ _ _ _ _ Ha) as (x' & y' & z' & -> & Ax & Ay & Az).
    destruct (Cl [x; y; z] eq_refl) as (_ & _ & Row). change (exactNode (Node h BMatrix)) with (Node (exactHeader h) (@BMatrix R)). eexists. eexists. split; [exact (Ac [x; y; z])|]. split; [exact (Ac' [x'; y'; z'])|]. rewrite !perPixel3.
    set (px := [x; y; z]) in *. set (px' := [x'; y'; z']) in *.
    assert (B0 : 0 <= B) by (destruct Hs as ([_ A] & _); eapply Rle_trans; [apply Rabs_pos|exact A]).
    assert (K0 : 0 <= K) by (eapply Rle_trans; [|apply (HK 0%nat ltac:(lia))]; rewrite sumTo3; pose proof (Rabs_pos (B2R (coef 0%nat 0%nat))); pose proof (Rabs_pos (B2R (coef 0%nat 1%nat))); pose proof (Rabs_pos (B2R (coef 0%nat 2%nat))); lra).
    assert (P : forall i, (i < 3)%nat -> (is_finite (nth i (F px) n0) = true /\ Rabs (B2R (nth i (F px) n0)) <= S + 6 * unit32 S) /\
      Rabs (B2R (nth i (F px) n0) - nth i (affine 3 (fun i j => B2R (coef i j)) off' px') 0) <= K * e + 6 * unit32 S).
    { intros i Hi. destruct (Row i Hi) as (v & Ev & W). rewrite (nth_error_nth _ _ _ Ev).
      set (o := option_map (fun o => o i) offset) in *.
      assert (EA : nth i (affine 3 (fun i j => B2R (coef i j)) off' px') 0 = B2R (coef i 0%nat) * x' + B2R (coef i 1%nat) * y' + B2R (coef i 2%nat) * z' + off' i).
      { unfold affine, indexed. cbn [px' List.length seq combine map fst snd]. destruct i as [|[|[|i]]]; try lia; cbn [nth Nat.ltb Nat.leb]; rewrite sumTo3; reflexivity. }
      rewrite EA. pose proof (HK i Hi) as Ki. rewrite sumTo3 in Ki.
      assert (Fr : rowFinite 3 (coef i) o px).
      { split; [|unfold o; destruct offset as [q|]; [cbn [option_map]; now apply HO|exact I]]. intros j Hj. split; [now apply Fc|]. destruct j as [|[|[|j]]]; try lia; cbn [px nth]; tauto. }
      assert (Ex : rowExact 3 (coef i) o px = B2R (coef i 0%nat) * B2R x + B2R (coef i 1%nat) * B2R y + B2R (coef i 2%nat) * B2R z + off' i).
      { unfold rowExact. rewrite sumTo3. unfold o, off'. destruct offset; reflexivity. }
      assert (Of : match o with None => 0 | Some q => Rabs (B2R q) end <= O).
      { unfold o. destruct offset as [q|]; cbn [option_map]; [now apply HO|rewrite HO; lra]. }
      assert (Sz : rowSize 3 (coef i) o px <= S).
      { unfold rowSize. rewrite sumTo3. cbn [px nth]. rewrite !Rabs_mult.
        assert (forall k v, Rabs v <= B -> Rabs k * Rabs v <= Rabs k * B) by (intros; apply Rmult_le_compat_l; [apply Rabs_pos|assumption]).
        pose proof (H0 (B2R (coef i 0%nat)) (B2R x) ltac:(tauto)). pose proof (H0 (B2R (coef i 1%nat)) (B2R y) ltac:(tauto)). pose proof (H0 (B2R (coef i 2%nat)) (B2R z) ltac:(tauto)).
        assert ((Rabs (B2R (coef i 0%nat)) + Rabs (B2R (coef i 1%nat)) + Rabs (B2R (coef i 2%nat))) * B <= K * B) by (apply Rmult_le_compat_r; assumption).
        unfold S. lra. }
      destruct (W Fr ltac:(lra)) as [Fv Bv]. rewrite Ex in Bv. replace (INR 3 + 3) with 6 in Bv by (cbn; ring).
      assert (U : 6 * (bpow radix2 (-23) * rowSize 3 (coef i) o px + bpow radix2 (-148)) <= 6 * unit32 S).
      { unfold unit32. pose proof (bpow_gt_0 radix2 (-23)). assert (bpow radix2 (-23) * rowSize 3 (coef i) o px <= bpow radix2 (-23) * S) by (apply Rmult_le_compat_l; lra). lra. }
      assert (Bx : Rabs (B2R (coef i 0%nat) * B2R x + B2R (coef i 1%nat) * B2R y + B2R (coef i 2%nat) * B2R z + off' i) <= S).
      { rewrite <- Ex. eapply Rle_trans; [|exact Sz]. unfold rowExact, rowSize. eapply Rle_trans; [apply Rabs_triang|].
        pose proof (sumTo_abs 3 (fun j => B2R (coef i j) * B2R (nth j px (B754_zero false)))) as Q. destruct o; [lra|rewrite Rabs_R0; lra]. }
      split; [split; [exact Fv|]|].
      - replace (B2R v) with ((B2R v - (B2R (coef i 0%nat) * B2R x + B2R (coef i 1%nat) * B2R y + B2R (coef i 2%nat) * B2R z + off' i)) + (B2R (coef i 0%nat) * B2R x + B2R (coef i 1%nat) * B2R y + B2R (coef i 2%nat) * B2R z + off' i)) by ring.
        eapply Rle_trans; [apply Rabs_triang|]. lra.
      - replace (B2R v - (B2R (coef i 0%nat) * x' + B2R (coef i 1%nat) * y' + B2R (coef i 2%nat) * z' + off' i))
          with ((B2R v - (B2R (coef i 0%nat) * B2R x + B2R (coef i 1%nat) * B2R y + B2R (coef i 2%nat) * B2R z + off' i)) + ((B2R (coef i 0%nat) * (B2R x - x') + B2R (coef i 1%nat) * (B2R y - y')) + B2R (coef i 2%nat) * (B2R z - z'))) by ring.
        eapply Rle_trans; [apply Rabs_triang|].
        assert (T : Rabs ((B2R (coef i 0%nat) * (B2R x - x') + B2R (coef i 1%nat) * (B2R y - y')) + B2R (coef i 2%nat) * (B2R z - z')) <= K * e).
        { eapply Rle_trans; [apply Rabs_triang|]. eapply Rle_trans; [apply Rplus_le_compat_r, Rabs_triang|]. rewrite !Rabs_mult.
          assert (forall k v, Rabs v <= e -> Rabs k * Rabs v <= Rabs k * e) by (intros; apply Rmult_le_compat_l; [apply Rabs_pos|assumption]).
          pose proof (H0 (B2R (coef i 0%nat)) _ Ax). pose proof (H0 (B2R (coef i 1%nat)) _ Ay). pose proof (H0 (B2R (coef i 2%nat)) _ Az).
          assert ((Rabs (B2R (coef i 0%nat)) + Rabs (B2R (coef i 1%nat)) + Rabs (B2R (coef i 2%nat))) * e <= K * e) by (apply Rmult_le_compat_r; assumption). lra. }
        lra. }
    split; [apply sized3; repeat split; try (now apply P; lia); apply P; lia|]. apply apart3_intro; apply P; lia.
  Qed.
End MatrixStage.
