(** A LUT3D in IEEE arithmetic never leaves its table, even for infinities and NaN. *)
From Coq Require Import Reals Lra Lia ZArith List String Psatz Arith.
From Flocq Require Import Core BinarySingleNaN.
From Verif Require Import SpecBounds PBase PFacts PAct PReal PIeee PIeeeArith PRound PClose PCloseLut PCloseRange PClose3D PErrorsLut PRelative PPack PIdentity PLut1D PHalfLut PLut3D PBounds PChain PList.
Import ListNotations.
Local Open Scope string_scope.
Local Open Scope list_scope.
Local Open Scope R_scope.

Section Any.
  Context (L : libm).
  #[local] Hint Extern 0 (Num fl) => exact (ieeeNum L) : typeclass_instances.

  Lemma clamp_any (p : fl) : is_finite (clamp p) = true /\ 0 <= B2R (clamp p) <= 1.
  Proof.
    destruct (is_finite p) eqn:F.
    - destruct (clamp_ieee L p F) as [Fc Ec]. split; [exact Fc|]. pose proof (clampR_bounds (B2R p)) as Q. rewrite <- Ec in Q. exact Q.
    - destruct (ofZ_exact L 0) as [F0 E0]; [lia|]. destruct (ofZ_exact L 1) as [F1 E1]; [lia|].
      destruct p as [s|[|]| |s m e B]; try discriminate F.
      + change (clamp (B754_infinity true : fl)) with (nofZ 0 : fl). split; [exact F0|rewrite E0; lra].
      + change (clamp (B754_infinity false : fl)) with (nofZ 1 : fl). split; [exact F1|rewrite E1; lra].
      + change (clamp (B754_nan : fl)) with (nofZ 0 : fl). split; [exact F0|rewrite E0; lra].
  Qed.

  Lemma axis_any (a : array fl) n px k p : wellFormed3D a n -> (2 <= n)%nat -> (Z.of_nat n <= 2 ^ 53)%Z -> (k < 3)%nat ->
    nth_error px k = Some p -> exists z i, axis a px k = Ok (z, i) /\ is_finite i = true /\ 0 <= B2R i <= 1.
  Proof.
    intros [[rest Hd] [_ _]] Hn Hm Hk Hp. destruct (clamp_any p) as [Fq Bq].
    unfold axis. apply getn_some in Hp. rewrite Hp. cbn [bind].
    assert (Ed : dim a k = Ok n) by (unfold dim; rewrite Hd; destruct k as [|[|[|k]]]; try lia; reflexivity).
    rewrite Ed. cbn [bind]. cbv zeta. set (q := clamp p) in *. set (f := nmul q (nofZ (Z.of_nat n - 1)) : fl).
    destruct (ofZ_exact L (Z.of_nat n - 1)) as [Fm Em]; [lia|].
    assert (M0 : 0 <= IZR (Z.of_nat n - 1)) by (apply IZR_le; lia).
    assert (M2 : IZR (Z.of_nat n - 1) <= bpow radix2 53) by (change (bpow radix2 53) with (IZR (2 ^ 53)); apply IZR_le; lia).
    assert (Ri : Rounds f (B2R q * IZR (Z.of_nat n - 1))) by (rewrite <- Em; apply mult_Rounds; assumption).
    assert (Bm : 0 <= B2R q * IZR (Z.of_nat n - 1) <= IZR (Z.of_nat n - 1)) by (split; [apply Rmult_le_pos; lra|nra]).
    assert (B127 : bpow radix2 53 <= bpow radix2 127) by (apply bpow_le; lia).
    destruct (Rounds_finite f _ 127 Ri) as [Ff Ei]; [rewrite Rabs_pos_eq; lra|lia|lia|].
    assert (Bf : 0 <= B2R f).
    { rewrite Ei. rewrite <- (rnd_0 (p := 53) (e := 1024)). now apply rnd_le. }
    destruct (ofZ_exact L 0) as [F0 E0]; [lia|].
    assert (Et : ntrunc f = Zfloor (B2R f)).
    { unfold ntrunc. assert (X : nltb f n0 = false).
      { change (Bltb f (@nofZ fl (ieeeNum L) 0) = false). rewrite Bltb_correct by assumption. rewrite E0. now apply Rlt_bool_false. }
      rewrite X. now apply flFloor_R. }
    rewrite Et. destruct (floor_exact L f Ff) as [Fz Ez]. pose proof (Zfloor_lb (B2R f)) as L1. pose proof (Zfloor_ub (B2R f)) as L2.
    destruct (unit_minus L f (nofZ (Zfloor (B2R f))) Ff Fz) as [Ft Ht]; [rewrite Ez; lra|].
    exists (Zfloor (B2R f)), (nsub f (nofZ (Zfloor (B2R f)))). split; [reflexivity|]. split; [exact Ft|]. rewrite Ht. apply rd_unit_near. rewrite Ez. lra.
  Qed.

  Theorem lut3d_any c (h : header fl) tet dIn a n :
    isCube h (kindOf tet) dIn a n -> (2 <= n)%nat -> (Z.of_nat n <= 2 ^ 53)%Z ->
    exists F, actsPerColour c (Node h BLUT3D) F /\
      forall ch lo hi, (ch < 3)%nat -> isSingle lo -> isSingle hi ->
        (forall i j k, (i < n)%nat -> (j < n)%nat -> (k < n)%nat -> liesBetween lo hi (entry3D a n i j k ch)) ->
        forall r g b, liesBetween lo hi (component ch (F r g b)).
  Proof.
    intros H Hn Hm. exists (cubeFun L tet a dIn). split; [now apply (cube_acts L c h dIn a n)|].
    intros ch lo hi Hch Sl Sh He r g b. destruct H as (_ & _ & _ & _ & Hw & _).
    set (p := fun x : fl => nf32 (bitDepthToNormalized x dIn)).
    destruct (axis_any a n [p r; p g; p b] 0 (p r) Hw Hn Hm ltac:(lia) eq_refl) as (zr & fr & Ar & Ffr & Bfr).
    destruct (axis_any a n [p r; p g; p b] 1 (p g) Hw Hn Hm ltac:(lia) eq_refl) as (zg & fg & Ag & Ffg & Bfg).
    destruct (axis_any a n [p r; p g; p b] 2 (p b) Hw Hn Hm ltac:(lia) eq_refl) as (zb & fb & Ab & Ffb & Bfb).
    assert (K : look tet a [p r; p g; p b] = Ok [interpT tet (gridT a n 0) zr zg zb fr fg fb; interpT tet (gridT a n 1) zr zg zb fr fg fb; interpT tet (gridT a n 2) zr zg zb fr fg fb])
      by exact (look_T tet a n _ _ _ _ _ _ _ Hw Ar Ag Ab).
    assert (EF : component ch (cubeFun L tet a dIn r g b) = nf32 (interpT tet (gridT a n ch) zr zg zb fr fg fb)).
    { change (cubeFun L tet a dIn r g b) with (match look tet a [p r; p g; p b] with Ok [x; y; z] => (nf32 x, nf32 y, nf32 z) | _ => (n0, n0, n0) end). rewrite K. destruct ch as [|[|[|ch]]]; try lia; reflexivity. }
    rewrite EF. apply (stored_between L 66); try assumption; [lra|].
    apply interp_nearly; try assumption; [now apply single_sizes|]. intros i j k. apply between_nearly. unfold gridT. apply He; apply clampZ_lt; lia.
  Qed.
  (** The last node of a list is run on something. *)
  Lemma last_runs hb run prev A (n : node fl) st v o : skips hb n = false -> chainOut hb run prev (A ++ [n])%list st v = Ok o ->
    exists w, outcome (run n w st) = Ok o.
  Proof.
    intro Hn. revert prev v. induction A as [|m A IH]; intros prev v; cbn [app chainOut].
    - rewrite Hn. intro H. exists v. destruct (run n v st) as [r|x]; cbn [bind outcome] in *; [exact H|discriminate H].
    - intro H. destruct (if skips hb m then bypassOut prev (hd_error (A ++ [n])%list) v else let* r := run m v st in Ok (po_out r)) as [w|x] eqn:E;
        cbn [bind] in H; [|discriminate H]. exact (IH _ _ H).
  Qed.

  Theorem list_bounds c a0 v0 e0 A (h : header fl) tet dIn a n lo hi values o :
    isCube h (kindOf tet) dIn a n -> (2 <= n)%nat -> (Z.of_nat n <= 2 ^ 53)%Z ->
    autodesk_on c = false \/ ~ hasBypass (Node h BLUT3D) ->
    isSingle lo -> isSingle hi -> B2R lo <= 0 <= B2R hi ->
    (forall i j k ch, (i < n)%nat -> (j < n)%nat -> (k < n)%nat -> (ch < 3)%nat -> liesBetween lo hi (entry3D a n i j k ch)) ->
    listProcess c (PList a0 v0 e0 (A ++ [Node h BLUT3D])) values 3 = Ok o -> Forall (liesBetween lo hi) (po_out o).
  Proof.
    intros H Hn Hm Hb Sl Sh Hz He Ho. pose proof (list_outcome c (PList a0 v0 e0 (A ++ [Node h BLUT3D])%list) values 3) as E. rewrite Ho in E. cbn [outcome procs_of] in E. symmetry in E.
    assert (Sk : skips (autodesk_on c) (Node h BLUT3D) = false).
    { unfold skips. destruct Hb as [-> |Hb]; [now rewrite Bool.orb_true_r|].
      destruct (notBypassed (Node h BLUT3D)) eqn:B; [reflexivity|]. apply notBypassed_iff in B. contradiction. }
    destruct (last_runs _ _ _ _ _ _ _ _ Sk E) as [w Hw]. destruct (lut3d_any c h tet dIn a n H Hn Hm) as (F & HF & B).
    rewrite (HF 3%nat w ltac:(lia)) in Hw. injection Hw as <-. destruct (ofZ_exact L 0) as [F0 E0]; [lia|].
    apply Forall_forall. intros x Hx. unfold perColour, indexed in Hx. apply in_map_iff in Hx. destruct Hx as ((i, y) & <- & _). cbn [fst snd].
    destruct (Nat.ltb i (List.length w / 3 * 3)).
    - set (r := nth (i / 3 * 3) w n0). set (g := nth (i / 3 * 3 + 1) w n0). set (b := nth (i / 3 * 3 + 2) w n0). clearbody r g b.
      assert (C : forall ch, (ch < 3)%nat -> liesBetween lo hi (component ch (F r g b))).
      { intros ch Hch. apply B; try assumption. intros i' j' k' Hi' Hj' Hk'. now apply He. }
      pose proof (C 0%nat ltac:(lia)) as C0. pose proof (C 1%nat ltac:(lia)) as C1. pose proof (C 2%nat ltac:(lia)) as C2.
      pose proof (Nat.mod_upper_bound i 3 ltac:(lia)) as Hi. destruct (F r g b) as [[r' g'] b']. destruct (i mod 3)%nat as [|[|[|k]]]; [exact C0|exact C1|exact C2|lia].
    - split; [exact F0|]. change (B2R lo <= B2R (nofZ 0 : fl) <= B2R hi). rewrite E0. exact Hz.
  Qed.
  Lemma cube_runs c a0 v0 e0 (h : header fl) tet dIn a n values : isCube h (kindOf tet) dIn a n -> ~ hasBypass (Node h BLUT3D) ->
    exists o, listProcess c (PList a0 v0 e0 [Node h BLUT3D]) values 3 = Ok o.
  Proof.
    intros H Hb. pose proof (list_outcome c (PList a0 v0 e0 [Node h BLUT3D]) values 3) as E. cbn [procs_of chainOut] in E.
    assert (Sk : skips (autodesk_on c) (Node h BLUT3D) = false).
    { unfold skips. destruct (notBypassed (Node h BLUT3D)) eqn:B; [reflexivity|]. apply notBypassed_iff in B. contradiction. }
    rewrite Sk in E. pose proof (cube_acts L c h dIn a n tet H 3%nat (map nf32 values) ltac:(lia)) as Q.
    destruct (nodeProcess c (Node h BLUT3D) (map nf32 values) 3) as [r|x]; cbn [outcome] in Q; [|discriminate Q]. cbn [bind] in E.
    destruct (listProcess c (PList a0 v0 e0 [Node h BLUT3D]) values 3) as [o|x]; [now exists o|discriminate E].
  Qed.
End Any.
