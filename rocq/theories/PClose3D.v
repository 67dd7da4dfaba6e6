(** Rounding errors of 3D lookups. *)
From Coq Require Import Reals Lra Lia ZArith List String Psatz Arith.
From Flocq Require Import Core BinarySingleNaN.
From Verif Require Import SpecClose SpecIeee PBase PFacts PIeee PIeeeArith PIeeeRange PLut1D PLut3D PPack PRound PCloseLut PSlope3D.
From Verif Require PElem PAct PChain.
Import ListNotations.
Local Open Scope R_scope.

(** * The table in any arithmetic *)
Section Table.
  Context {T : Type} {N : Num T}.
  Definition gridT (a : array T) (n ch : nat) (i j k : Z) : T := entry3D a n (clampZ n i) (clampZ n j) (clampZ n k) ch.
  Lemma lookup3D_T (a : array T) n i j k :
    wellFormed3D a n -> lookup3D a i j k = Ok [gridT a n 0 i j k; gridT a n 1 i j k; gridT a n 2 i j k].
  Proof.
    intros [[rest Hd] [Hn Hl]]. unfold lookup3D, gridT, entry3D. rewrite Hd. cbv zeta.
    change (clampIndex i n) with (clampZ n i). change (clampIndex j n) with (clampZ n j). change (clampIndex k n) with (clampZ n k).
    pose proof (clampZ_lt n i Hn). pose proof (clampZ_lt n j Hn). pose proof (clampZ_lt n k Hn).
    generalize dependent (clampZ n i). generalize dependent (clampZ n j). generalize dependent (clampZ n k). intros z Hz y Hy x Hx.
    replace ((x * n * n + y * n + z) * 3)%nat with (((x * n + y) * n + z) * 3)%nat by lia.
    set (p := (((x * n + y) * n + z) * 3)%nat).
    assert (Hp : (p + 3 <= List.length (a_vals a))%nat) by (unfold p; rewrite Hl; nia).
    assert (G : forall c, (c < 3)%nat -> nth_error (slice (a_vals a) p (p + 3)) c = Some (nth (p + c) (a_vals a) n0)).
    { intros c Hc. rewrite slice_nth by lia. apply nth_error_nth'. lia. }
    assert (L : List.length (slice (a_vals a) p (p + 3)) = 3%nat) by (rewrite slice_length; lia).
    destruct (slice (a_vals a) p (p + 3)) as [|u [|v [|w [|? t]]]]; try discriminate.
    pose proof (G 0%nat ltac:(lia)) as G0. pose proof (G 1%nat ltac:(lia)) as G1. pose proof (G 2%nat ltac:(lia)) as G2.
    cbn in G0, G1, G2. injection G0 as ->. injection G1 as ->. injection G2 as ->. reflexivity.
  Qed.
  Lemma corners_T (a : array T) n r g b : wellFormed3D a n ->
    corners a r g b = Ok (map (fun p => [gridT a n 0 (fst (fst p)) (snd (fst p)) (snd p); gridT a n 1 (fst (fst p)) (snd (fst p)) (snd p);
                                         gridT a n 2 (fst (fst p)) (snd (fst p)) (snd p)])
      [(r, g, b); (r, g, b + 1); (r, g + 1, b); (r, g + 1, b + 1); (r + 1, g, b); (r + 1, g, b + 1); (r + 1, g + 1, b); (r + 1, g + 1, b + 1)]%Z).
  Proof. intro H. unfold corners. rewrite !(lookup3D_T a n) by assumption. reflexivity. Qed.

  Definition lerp (i x y : T) : T := nadd (nmul (nsub n1 i) x) (nmul i y).
  Definition triT (e : Z -> Z -> Z -> T) (r g b : Z) (fr fg fb : T) : T :=
    lerp fr (lerp fg (lerp fb (e r g b) (e r g (b + 1)%Z)) (lerp fb (e r (g + 1)%Z b) (e r (g + 1)%Z (b + 1)%Z)))
            (lerp fg (lerp fb (e (r + 1)%Z g b) (e (r + 1)%Z g (b + 1)%Z)) (lerp fb (e (r + 1)%Z (g + 1)%Z b) (e (r + 1)%Z (g + 1)%Z (b + 1)%Z))).
  Definition blend (w0 x0 w1 x1 w2 x2 w3 x3 : T) : T := nadd (nadd (nadd (nmul w0 x0) (nmul w1 x1)) (nmul w2 x2)) (nmul w3 x3).
  Definition tetT (e : Z -> Z -> Z -> T) (r g b : Z) (fx fy fz : T) : T :=
    let c0 := e r g b in let c1 := e r g (b + 1)%Z in let c2 := e r (g + 1)%Z b in let c3 := e r (g + 1)%Z (b + 1)%Z in
    let c4 := e (r + 1)%Z g b in let c5 := e (r + 1)%Z g (b + 1)%Z in let c6 := e (r + 1)%Z (g + 1)%Z b in
    let c7 := e (r + 1)%Z (g + 1)%Z (b + 1)%Z in
    if nltb fy fx then
      if nltb fz fy then blend (nsub n1 fx) c0 (nsub fx fy) c4 (nsub fy fz) c6 fz c7
      else if nltb fz fx then blend (nsub n1 fx) c0 (nsub fx fz) c4 (nsub fz fy) c5 fy c7
      else blend (nsub n1 fz) c0 (nsub fz fx) c1 (nsub fx fy) c5 fy c7
    else
      if nltb fy fz then blend (nsub n1 fz) c0 (nsub fz fy) c1 (nsub fy fx) c3 fx c7
      else if nltb fx fz then blend (nsub n1 fy) c0 (nsub fy fz) c2 (nsub fz fx) c3 fx c7
      else blend (nsub n1 fy) c0 (nsub fy fx) c2 (nsub fx fz) c6 fz c7.
  Definition interpT (tet : bool) := if tet then tetT else triT.

  Definition look (tet : bool) (a : array T) := if tet then lookup3DTetrahedral a else lookup3DTrilinear a.
  Lemma look_T tet (a : array T) n px r g b fr fg fb : wellFormed3D a n ->
    axis a px 0 = Ok (r, fr) -> axis a px 1 = Ok (g, fg) -> axis a px 2 = Ok (b, fb) ->
    look tet a px = Ok [interpT tet (gridT a n 0) r g b fr fg fb; interpT tet (gridT a n 1) r g b fr fg fb; interpT tet (gridT a n 2) r g b fr fg fb].
  Proof.
    intros H Hr Hg Hb. destruct tet; unfold look.
    - unfold lookup3DTetrahedral. rewrite Hr, Hg, Hb. cbn [bind]. rewrite (corners_T a n) by assumption. cbn [map fst snd bind].
      unfold tetra, tetra4, interpT, tetT, blend. cbn [getn nth_error bind].
      destruct (nltb fg fr); [destruct (nltb fb fg); [|destruct (nltb fb fr)]|destruct (nltb fg fb); [|destruct (nltb fr fb)]]; reflexivity.
    - unfold lookup3DTrilinear. rewrite Hr, Hg, Hb. cbn [bind]. rewrite (corners_T a n) by assumption. reflexivity.
  Qed.
End Table.

(** * Arithmetic in double *)
Section Double.
  Variable L : libm.
  #[local] Instance N3 : Num fl := ieeeNum L.
  Let u := bpow radix2 (-53).
  Let s := bpow radix2 (-1075).

  Lemma nearW (z : fl) r : Rounds z r -> Rabs r <= bpow radix2 1000 -> is_finite z = true /\ Rabs (B2R z - r) <= u * Rabs r + s.
  Proof.
    intros H B. destruct (Rounds_finite z r 1000 H B) as [F E]; [lia|lia|]. split; [exact F|]. rewrite E.
    exact (rnd_rel (p := 53) (e := 1024) r).
  Qed.

  (** A size that dwarfs underflow. *)
  Definition size (M : R) : Prop := 1000 * s <= u * M /\ M <= bpow radix2 126.
  Lemma u_small : 0 < u <= / 1000000000.
  Proof.
    unfold u. split; [apply bpow_gt_0|]. apply Rle_trans with (bpow radix2 (-30)); [apply bpow_le; lia|].
    change (bpow radix2 (-30)) with (/ 1073741824). lra.
  Qed.
  Lemma s_pos : 0 < s.
  Proof. apply bpow_gt_0. Qed.
  Lemma size_pos M : size M -> 0 < M.
  Proof. intros [H _]. pose proof u_small. pose proof s_pos. destruct (Rle_or_lt M 0) as [K|K]; [|exact K]. assert (u * M <= 0) by nra. lra. Qed.
  Lemma big M k : size M -> 0 <= k <= 1000 -> k * M <= bpow radix2 1000.
  Proof.
    intros [H1 H2] Hk. pose proof (size_pos M (conj H1 H2)). apply Rle_trans with (1000 * bpow radix2 126); [apply Rmult_le_compat; lra|].
    apply Rle_trans with (bpow radix2 10 * bpow radix2 126).
    - apply Rmult_le_compat_r; [apply bpow_ge_0|]. change (bpow radix2 10) with 1024. lra.
    - rewrite <- bpow_plus. apply bpow_le. lia.
  Qed.

  Lemma prod (z v : fl) g M : size M -> is_finite z = true -> is_finite v = true -> 0 <= g <= 1 -> Rabs (B2R z - g) <= 2 * u -> Rabs (B2R v) <= 2 * M ->
    is_finite (nmul z v) = true /\ Rabs (B2R (nmul z v) - g * B2R v) <= 8 * u * M.
  Proof.
    intros HM Fz Fv Hg Ez Bv. pose proof (size_pos M HM) as M0. pose proof u_small as [U0 U1]. pose proof s_pos as S0.
    assert (Rp : Rounds (nmul z v) (B2R z * B2R v)) by (apply mult_Rounds; assumption).
    assert (Az : Rabs (B2R z) <= 11 / 10) by (apply Rabs_le_inv in Ez; apply Rabs_le; lra).
    assert (Ap : Rabs (B2R z * B2R v) <= 11 / 10 * (2 * M)) by (rewrite Rabs_mult; apply Rmult_le_compat; try apply Rabs_pos; assumption).
    destruct (nearW _ _ Rp) as [Fp Ep]; [eapply Rle_trans; [exact Ap|]; replace (11 / 10 * (2 * M)) with (22 / 10 * M) by lra; apply big; [exact HM|lra]|].
    split; [exact Fp|].
    replace (B2R (nmul z v) - g * B2R v) with ((B2R (nmul z v) - B2R z * B2R v) + (B2R z - g) * B2R v) by ring. eapply Rle_trans; [apply Rabs_triang|].
    rewrite (Rabs_mult (B2R z - g)). assert (Rabs (B2R z - g) * Rabs (B2R v) <= 2 * u * (2 * M)) by (apply Rmult_le_compat; try apply Rabs_pos; assumption).
    assert (u * Rabs (B2R z * B2R v) <= u * (11 / 10 * (2 * M))) by (apply Rmult_le_compat_l; lra).
    destruct HM as [HM _]. nra.
  Qed.
  Lemma sum (p q : fl) M k : size M -> is_finite p = true -> is_finite q = true -> 1 <= k <= 100 -> Rabs (B2R p + B2R q) <= k * M ->
    is_finite (nadd p q) = true /\ Rabs (B2R (nadd p q) - (B2R p + B2R q)) <= 2 * k * u * M.
  Proof.
    intros HM Fp Fq Hk B. pose proof (size_pos M HM) as M0. pose proof u_small as [U0 U1]. pose proof s_pos as S0.
    assert (Rq : Rounds (nadd p q) (B2R p + B2R q)) by (apply plus_Rounds; assumption).
    destruct (nearW _ _ Rq) as [F E]; [eapply Rle_trans; [exact B|]; apply big; [exact HM|lra]|].
    split; [exact F|]. eapply Rle_trans; [exact E|]. assert (u * Rabs (B2R p + B2R q) <= u * (k * M)) by (apply Rmult_le_compat_l; lra).
    destruct HM as [HM _]. assert (0 <= u * M) by nra. nra.
  Qed.
  Lemma diff (p q : fl) : is_finite p = true -> is_finite q = true -> 0 <= B2R p - B2R q <= 1 ->
    is_finite (nsub p q) = true /\ Rabs (B2R (nsub p q) - (B2R p - B2R q)) <= 2 * u.
  Proof.
    intros Fp Fq B. pose proof u_small as [U0 U1]. pose proof s_pos as S0.
    assert (Rq : Rounds (nsub p q) (B2R p - B2R q)) by (apply minus_Rounds; assumption).
    assert (G : 1 <= bpow radix2 1000) by (change 1 with (bpow radix2 0); apply bpow_le; lia).
    destruct (nearW _ _ Rq) as [F E]; [rewrite Rabs_pos_eq; lra|]. split; [exact F|].
    eapply Rle_trans; [exact E|]. assert (s <= u) by (apply bpow_le; lia). rewrite Rabs_pos_eq by lra. nra.
  Qed.

  Lemma one : is_finite (n1 : fl) = true /\ B2R (n1 : fl) = 1.
  Proof. apply (ofZ_exact L 1). lia. Qed.

  Lemma lerp_close (i v1 v2 : fl) a1 a2 M d : size M -> is_finite i = true -> 0 <= B2R i <= 1 -> is_finite v1 = true -> is_finite v2 = true ->
    Rabs (B2R v1 - a1) <= d -> Rabs (B2R v2 - a2) <= d -> Rabs a1 <= M -> Rabs a2 <= M -> d <= M / 1000 ->
    is_finite (lerp i v1 v2) = true /\ Rabs (B2R (lerp i v1 v2) - ((1 - B2R i) * a1 + B2R i * a2)) <= d + 30 * u * M.
  Proof.
    intros HM Fi Bi F1 F2 E1 E2 A1 A2 Hd. pose proof (size_pos M HM) as M0. pose proof u_small as [U0 U1].
    destruct one as [Fo Eo]. destruct (diff n1 i Fo Fi) as [Fw Ew]; [rewrite Eo; lra|]. rewrite Eo in Ew.
    assert (uM : 0 <= u * M <= M / 1000000000) by (split; [apply Rmult_le_pos; lra|nra]).
    assert (B1 : Rabs (B2R v1) <= 2 * M) by (replace (B2R v1) with ((B2R v1 - a1) + a1) by ring; eapply Rle_trans; [apply Rabs_triang|]; lra).
    assert (B2' : Rabs (B2R v2) <= 2 * M) by (replace (B2R v2) with ((B2R v2 - a2) + a2) by ring; eapply Rle_trans; [apply Rabs_triang|]; lra).
    destruct (prod (nsub n1 i) v1 (1 - B2R i) M HM Fw F1) as [Fp1 Ep1]; [lra|exact Ew|exact B1|].
    destruct (prod i v2 (B2R i) M HM Fi F2) as [Fp2 Ep2]; [lra|rewrite Rminus_diag_eq, Rabs_R0 by reflexivity; lra|exact B2'|].
    set (p1 := nmul (nsub n1 i) v1) in *. set (p2 := nmul i v2) in *.
    assert (C : Rabs ((1 - B2R i) * (B2R v1 - a1) + B2R i * (B2R v2 - a2)) <= d).
    { eapply Rle_trans; [apply Rabs_triang|]. rewrite !Rabs_mult, (Rabs_pos_eq (1 - B2R i)), (Rabs_pos_eq (B2R i)) by lra. nra. }
    assert (Br : Rabs ((1 - B2R i) * a1 + B2R i * a2) <= M).
    { eapply Rle_trans; [apply Rabs_triang|]. rewrite !Rabs_mult, (Rabs_pos_eq (1 - B2R i)), (Rabs_pos_eq (B2R i)) by lra. nra. }
    set (r := (1 - B2R i) * a1 + B2R i * a2) in *.
    assert (Q : Rabs (B2R p1 + B2R p2 - r) <= d + 16 * u * M).
    { replace (B2R p1 + B2R p2 - r) with ((B2R p1 - (1 - B2R i) * B2R v1) + (B2R p2 - B2R i * B2R v2) + ((1 - B2R i) * (B2R v1 - a1) + B2R i * (B2R v2 - a2))) by (unfold r; ring).
      eapply Rle_trans; [apply Rabs_triang|]. pose proof (Rabs_triang (B2R p1 - (1 - B2R i) * B2R v1) (B2R p2 - B2R i * B2R v2)). lra. }
    destruct (sum p1 p2 M 2 HM Fp1 Fp2) as [Fq Eq]; [lra| |].
    { replace (B2R p1 + B2R p2) with ((B2R p1 + B2R p2 - r) + r) by ring. eapply Rle_trans; [apply Rabs_triang|]. lra. }
    split; [exact Fq|]. change (lerp i v1 v2) with (nadd p1 p2).
    replace (B2R (nadd p1 p2) - r) with ((B2R (nadd p1 p2) - (B2R p1 + B2R p2)) + (B2R p1 + B2R p2 - r)) by ring.
    eapply Rle_trans; [apply Rabs_triang|]. lra.
  Qed.

  Lemma blend_close (w0 w1 w2 w3 x0 x1 x2 x3 : fl) g0 g1 g2 g3 M : size M ->
    is_finite w0 = true -> is_finite w1 = true -> is_finite w2 = true -> is_finite w3 = true ->
    is_finite x0 = true -> is_finite x1 = true -> is_finite x2 = true -> is_finite x3 = true ->
    Rabs (B2R w0 - g0) <= 2 * u -> Rabs (B2R w1 - g1) <= 2 * u -> Rabs (B2R w2 - g2) <= 2 * u -> Rabs (B2R w3 - g3) <= 2 * u ->
    0 <= g0 <= 1 -> 0 <= g1 <= 1 -> 0 <= g2 <= 1 -> 0 <= g3 <= 1 ->
    Rabs (B2R x0) <= M -> Rabs (B2R x1) <= M -> Rabs (B2R x2) <= M -> Rabs (B2R x3) <= M ->
    is_finite (blend w0 x0 w1 x1 w2 x2 w3 x3) = true /\
    Rabs (B2R (blend w0 x0 w1 x1 w2 x2 w3 x3) - (g0 * B2R x0 + g1 * B2R x1 + g2 * B2R x2 + g3 * B2R x3)) <= 90 * u * M.
  Proof.
    intros HM Fw0 Fw1 Fw2 Fw3 Fx0 Fx1 Fx2 Fx3 E0 E1 E2 E3 G0 G1 G2 G3 B0 B1 B2' B3.
    pose proof (size_pos M HM) as M0. pose proof u_small as [U0 U1].
    assert (uM : 0 <= u * M <= M / 1000000000) by (split; [apply Rmult_le_pos; lra|nra]).
    destruct (prod w0 x0 g0 M HM Fw0 Fx0 G0 E0) as [P0 Q0]; [lra|]. destruct (prod w1 x1 g1 M HM Fw1 Fx1 G1 E1) as [P1 Q1]; [lra|].
    destruct (prod w2 x2 g2 M HM Fw2 Fx2 G2 E2) as [P2 Q2]; [lra|]. destruct (prod w3 x3 g3 M HM Fw3 Fx3 G3 E3) as [P3 Q3]; [lra|].
    unfold blend. set (p0 := nmul w0 x0) in *. set (p1 := nmul w1 x1) in *. set (p2 := nmul w2 x2) in *. set (p3 := nmul w3 x3) in *.
    assert (K : forall g x, 0 <= g <= 1 -> Rabs x <= M -> Rabs (g * x) <= M) by (intros g x Hg Hx; rewrite Rabs_mult, (Rabs_pos_eq g) by lra; pose proof (Rabs_pos x); nra).
    pose proof (K g0 _ G0 B0) as K0. pose proof (K g1 _ G1 B1) as K1. pose proof (K g2 _ G2 B2') as K2. pose proof (K g3 _ G3 B3) as K3. clear K.
    set (y0 := g0 * B2R x0) in *. set (y1 := g1 * B2R x1) in *. set (y2 := g2 * B2R x2) in *. set (y3 := g3 * B2R x3) in *.
    clearbody p0 p1 p2 p3 y0 y1 y2 y3.
    apply Rabs_le_inv in Q0, Q1, Q2, Q3, K0, K1, K2, K3.
    destruct (sum p0 p1 M 3 HM P0 P1) as [S1 T1]; [lra|apply Rabs_le; lra|]. set (q1 := nadd p0 p1) in *. clearbody q1. apply Rabs_le_inv in T1.
    destruct (sum q1 p2 M 4 HM S1 P2) as [S2 T2]; [lra|apply Rabs_le; lra|]. set (q2 := nadd q1 p2) in *. clearbody q2. apply Rabs_le_inv in T2.
    destruct (sum q2 p3 M 5 HM S2 P3) as [S3 T3]; [lra|apply Rabs_le; lra|]. set (q3 := nadd q2 p3) in *. clearbody q3. apply Rabs_le_inv in T3.
    split; [exact S3|]. apply Rabs_le. lra.
  Qed.

  Lemma interp_close tet (e : Z -> Z -> Z -> fl) r g b (fx fy fz : fl) M : size M ->
    (forall i j k, is_finite (e i j k) = true /\ Rabs (B2R (e i j k)) <= M) ->
    is_finite fx = true -> is_finite fy = true -> is_finite fz = true -> 0 <= B2R fx <= 1 -> 0 <= B2R fy <= 1 -> 0 <= B2R fz <= 1 ->
    is_finite (interpT tet e r g b fx fy fz) = true /\
    Rabs (B2R (interpT tet e r g b fx fy fz) - interpV tet (fun i j k => B2R (e i j k)) r g b (B2R fx) (B2R fy) (B2R fz)) <= 90 * u * M.
  Proof.
    intros HM He Fx Fy Fz Bx By Bz. pose proof (size_pos M HM) as M0. pose proof u_small as [U0 U1].
    assert (uM : 0 <= u * M <= M / 1000000000) by (split; [apply Rmult_le_pos; lra|nra]).
    destruct tet; unfold interpT, interpV.
    - unfold tetT, tetV. cbv zeta.
      assert (LT : forall x y : fl, is_finite x = true -> is_finite y = true -> nltb x y = Rltb (B2R x) (B2R y)).
      { intros x y Hx Hy. change (nltb x y) with (Bltb x y). rewrite Bltb_correct by assumption. unfold Rlt_bool, Rltb.
        destruct (Rcompare_spec (B2R x) (B2R y)); destruct (Rlt_dec (B2R x) (B2R y)); try reflexivity; lra. }
      rewrite !LT by assumption. destruct one as [Fo Eo].
      assert (W1 : forall f : fl, is_finite f = true -> 0 <= B2R f <= 1 -> is_finite (nsub n1 f) = true /\ Rabs (B2R (nsub n1 f) - (1 - B2R f)) <= 2 * u).
      { intros f F B. destruct (diff n1 f Fo F) as [A C]; [rewrite Eo; lra|]. rewrite Eo in C. now split. }
      assert (W0 : forall f : fl, Rabs (B2R f - B2R f) <= 2 * u) by (intro f; rewrite Rminus_diag_eq, Rabs_R0 by reflexivity; lra).
      orders; apply blend_close; try apply He; try apply W1; try apply W0; try apply diff; try assumption; lra.
    - unfold triT, triV. set (E := fun i j k => B2R (e i j k)).
      assert (K0 : forall i j k, Rabs (B2R (e i j k) - E i j k) <= 0) by (intros; unfold E; rewrite Rminus_diag_eq, Rabs_R0 by reflexivity; lra).
      assert (KM : forall i j k, Rabs (E i j k) <= M) by (intros; apply He).
      assert (CM : forall w x y, 0 <= w <= 1 -> Rabs x <= M -> Rabs y <= M -> Rabs ((1 - w) * x + w * y) <= M).
      { intros w x y Hw Hx' Hy'. eapply Rle_trans; [apply Rabs_triang|]. rewrite !Rabs_mult, (Rabs_pos_eq (1 - w)), (Rabs_pos_eq w) by lra. nra. }
      assert (L1 : forall i j k i' j' k', is_finite (lerp fz (e i j k) (e i' j' k')) = true /\
        Rabs (B2R (lerp fz (e i j k) (e i' j' k')) - ((1 - B2R fz) * E i j k + B2R fz * E i' j' k')) <= 30 * u * M).
      { intros. destruct (lerp_close fz (e i j k) (e i' j' k') (E i j k) (E i' j' k') M 0) as [A C]; try assumption; try apply He; try apply K0; [lra|].
        split; [exact A|]. lra. }
      assert (L2 : forall i j k i' j' k' p q t p' q' t', let x := lerp fz (e i j k) (e i' j' k') in let y := lerp fz (e p q t) (e p' q' t') in
        is_finite (lerp fy x y) = true /\ Rabs (B2R (lerp fy x y) - ((1 - B2R fy) * ((1 - B2R fz) * E i j k + B2R fz * E i' j' k') + B2R fy * ((1 - B2R fz) * E p q t + B2R fz * E p' q' t'))) <= 60 * u * M).
      { intros. destruct (L1 i j k i' j' k') as [A1 C1]. destruct (L1 p q t p' q' t') as [A2 C2]. fold x in A1, C1. fold y in A2, C2.
        match goal with |- _ /\ Rabs (_ - ((1 - _) * ?a1 + _ * ?a2)) <= _ => destruct (lerp_close fy x y a1 a2 M (30 * u * M)) as [A C] end;
          try assumption; try (apply CM; [assumption|apply KM|apply KM]); [lra|]. split; [exact A|]. lra. }
      set (x := lerp fy (lerp fz (e r g b) _) _) at 1 2. set (y := lerp fy (lerp fz (e (r + 1)%Z g b) _) _).
      pose proof (L2 r g b r g (b + 1)%Z r (g + 1)%Z b r (g + 1)%Z (b + 1)%Z) as [A1 C1].
      pose proof (L2 (r + 1)%Z g b (r + 1)%Z g (b + 1)%Z (r + 1)%Z (g + 1)%Z b (r + 1)%Z (g + 1)%Z (b + 1)%Z) as [A2 C2]. cbv zeta in *.
      fold x in A1, C1. fold y in A2, C2.
      match type of C1 with Rabs (_ - ?a) <= _ => match type of C2 with Rabs (_ - ?c) <= _ => destruct (lerp_close fx x y a c M (60 * u * M)) as [A C] end end;
        try assumption; try (apply CM; [assumption| |]; apply CM; try assumption; apply KM); [lra|].
      split; [exact A|]. unfold E in C. lra.
  Qed.
End Double.

(** * The position *)
Section Position.
  Variable L : libm.
  #[local] Instance N3p : Num fl := ieeeNum L.

  Lemma clamp_ieee (p : fl) : is_finite p = true -> is_finite (clamp p) = true /\ B2R (clamp p) = clampR (B2R p).
  Proof.
    intro F. destruct (ofZ_exact L 0) as [F0 E0]; [lia|]. destruct (ofZ_exact L 1) as [F1 E1]; [lia|].
    unfold clamp, pymin, pymax.
    assert (LT : forall x y : fl, is_finite x = true -> is_finite y = true -> nltb x y = Rlt_bool (B2R x) (B2R y)) by (intros; now apply Bltb_correct).
    unfold clampR, Rmin, Rmax.
    assert (D : is_finite (if nltb n0 p then p else n0) = true /\ B2R (if nltb n0 p then p else n0) = if Rle_dec 0 (B2R p) then B2R p else 0).
    { rewrite LT by assumption. change (B2R (n0 : fl)) with (B2R (@nofZ fl (ieeeNum L) 0)). rewrite E0.
      destruct (Rlt_bool_spec 0 (B2R p)) as [A|A]; (split; [assumption|]); destruct (Rle_dec 0 (B2R p)); try lra.
      - change (B2R (@nofZ fl (ieeeNum L) 0) = B2R p). lra.
      - exact E0. }
    destruct D as [D1 D2]. set (q := if nltb n0 p then p else n0) in *. rewrite <- D2. clearbody q.
    rewrite LT by assumption. change (B2R (n1 : fl)) with (B2R (@nofZ fl (ieeeNum L) 1)). rewrite E1.
    destruct (Rlt_bool_spec (B2R q) 1) as [A|A]; (split; [assumption|]); destruct (Rle_dec 1 (B2R q)); try lra.
    change (B2R (@nofZ fl (ieeeNum L) 1) = 1). exact E1.
  Qed.

  Lemma clampR_close P p : (0 <= P <= 1 -> Rabs (p - P) <= bpow radix2 (-23) + bpow radix2 (-149)) -> (1 <= P -> 1 <= p) -> (P <= 0 -> p <= 0) ->
    Rabs (clampR p - clampR P) <= bpow radix2 (-23) + bpow radix2 (-149).
  Proof.
    intros H H1 H0. assert (B := bpow_gt_0 radix2 (-23)). assert (B' := bpow_gt_0 radix2 (-149)). unfold clampR, Rmin, Rmax.
    destruct (Rle_or_lt P 0) as [A|A]; [|destruct (Rle_or_lt 1 P) as [A'|A']].
    - specialize (H0 A). repeat destruct (Rle_dec _ _); apply Rabs_le; lra.
    - specialize (H1 A'). repeat destruct (Rle_dec _ _); apply Rabs_le; lra.
    - specialize (H ltac:(lra)). apply Rabs_le_inv in H. repeat destruct (Rle_dec _ _); apply Rabs_le; lra.
  Qed.

  Lemma rnd_order {p e} {Hp : Prec_gt_0 p} {He : Prec_lt_emax p e} r : (p < e)%Z ->
    (1 <= r -> 1 <= rnd (p := p) (e := e) r) /\ (r <= 0 -> rnd (p := p) (e := e) r <= 0).
  Proof.
    intro Hpe. split; intro H.
    - rewrite <- (rnd_format (p := p) (e := e) 1); [now apply rnd_le|]. change 1 with (bpow radix2 0). apply generic_format_bpow. unfold SpecFloat.fexp, SpecFloat.emin, Prec_gt_0 in *. lia.
    - rewrite <- (rnd_0 (p := p) (e := e)). now apply rnd_le.
  Qed.

  Lemma position_close n d (x : fl) : (2 <= n)%nat -> (Z.of_nat n <= 2 ^ 53)%Z -> is_finite x = true -> Rabs (B2R x / fullScale d) <= bpow radix2 126 ->
    let f := nmul (clamp (nf32 (bitDepthToNormalized x d))) (nofZ (Z.of_nat n - 1)) in
    is_finite f = true /\ 0 <= B2R f <= INR (n - 1) /\ Rabs (B2R f - clampR (B2R x / fullScale d) * INR (n - 1)) <= 101 / 100 * bpow radix2 (-23) * INR (n - 1).
  Proof.
    intros Hn Hm Fx Hx f. set (P := B2R x / fullScale d) in *.
    destruct (normalized_stored L d x Fx Hx) as [[Fp Ep] Rp]. fold P in Ep, Rp. set (p := nf32 (bitDepthToNormalized x d)) in *.
    destruct (clamp_ieee p Fp) as [Fc Ec].
    assert (C : Rabs (clampR (B2R p) - clampR P) <= bpow radix2 (-23) + bpow radix2 (-149)).
    { apply clampR_close.
      - intros HP. eapply Rle_trans; [exact Ep|]. rewrite Rabs_pos_eq by lra. pose proof (bpow_gt_0 radix2 (-23)). nra.
      - intro HP. rewrite Rp. apply rnd_order; [lia|]. apply rnd_order; [lia|exact HP].
      - intro HP. rewrite Rp. apply rnd_order; [lia|]. apply rnd_order; [lia|exact HP]. }
    rewrite <- Ec in C. pose proof (clampR_bounds (B2R p)) as Bc. rewrite <- Ec in Bc. pose proof (clampR_bounds P) as BP.
    set (q := clamp p) in *. set (Q := clampR P) in *.
    destruct (ofZ_exact L (Z.of_nat n - 1)) as [Fm Em]; [lia|]. rewrite (INR_pred n) in Em by lia.
    assert (M1 : 1 <= INR (n - 1)) by (change 1 with (INR 1); apply le_INR; lia). set (m := INR (n - 1)) in *.
    assert (M2 : m <= bpow radix2 53).
    { unfold m. rewrite <- INR_pred by lia. change (bpow radix2 53) with (IZR (2 ^ 53)). apply IZR_le. lia. }
    assert (Ri : Rounds f (B2R q * m)) by (rewrite <- Em; apply mult_Rounds; assumption).
    assert (Bm : 0 <= B2R q * m <= m) by (split; [apply Rmult_le_pos; lra|nra]).
    assert (B127 : m <= bpow radix2 127) by (eapply Rle_trans; [exact M2|apply bpow_le; lia]).
    destruct (Rounds_finite f _ 127 Ri) as [Fi Ei]; [rewrite Rabs_pos_eq; lra|lia|lia|].
    split; [exact Fi|]. split.
    - rewrite Ei. split; [rewrite <- (rnd_0 (p := 53) (e := 1024)); now apply rnd_le|].
      rewrite <- Em. rewrite <- (rnd_id (p := 53) (e := 1024) (nofZ (Z.of_nat n - 1))). apply rnd_le. rewrite rnd_id, Em. lra.
    - destruct (near f _ Ri) as [_ Ci]; [rewrite Rabs_pos_eq; lra|].
      destruct tiny as ((U0 & U1) & (S0 & S1) & T1 & E1 & S2).
      set (e := bpow radix2 (-23)) in *. set (u := bpow radix2 (-53)) in *. set (t := bpow radix2 (-149)) in *. set (s := bpow radix2 (-1075)) in *.
      replace (B2R f - Q * m) with ((B2R f - B2R q * m) + (B2R q - Q) * m) by ring. eapply Rle_trans; [apply Rabs_triang|].
      rewrite (Rabs_mult (B2R q - Q)), (Rabs_pos_eq m) by lra. rewrite (Rabs_pos_eq (B2R q * m)) in Ci by lra.
      assert (u * (B2R q * m) <= u * m) by (apply Rmult_le_compat_l; lra).
      assert (Rabs (B2R q - Q) * m <= (e + t) * m) by (apply Rmult_le_compat_r; lra).
      assert (u * m <= e / 100000 * m) by (apply Rmult_le_compat_r; lra).
      assert (t * m <= e / 100000 * m) by (apply Rmult_le_compat_r; lra).
      assert (s * 1 <= s * m) by (apply Rmult_le_compat_l; lra). assert (s * m <= e / 100000 * m) by (apply Rmult_le_compat_r; lra).
      assert (0 <= e * m) by (apply Rmult_le_pos; lra). lra.
  Qed.

  (** One axis: a cell and a fraction of it, close to the exact position. *)
  Lemma axis_ieee (a : array fl) n d px k x : wellFormed3D a n -> (2 <= n)%nat -> (Z.of_nat n <= 2 ^ 53)%Z -> (k < 3)%nat ->
    nth_error px k = Some (nf32 (bitDepthToNormalized x d)) -> is_finite x = true -> Rabs (B2R x / fullScale d) <= bpow radix2 126 ->
    exists z i, axis a px k = Ok (z, i) /\ is_finite i = true /\ 0 <= B2R i <= 1 /\
      Rabs (IZR z + B2R i - clampR (B2R x / fullScale d) * INR (n - 1)) <= 102 / 100 * bpow radix2 (-23) * INR (n - 1).
  Proof.
    intros [[rest Hd] [_ _]] Hn Hm Hk Hp Fx Hx. destruct (position_close n d x Hn Hm Fx Hx) as (Ff & Bf & Ef).
    unfold axis. apply getn_some in Hp. rewrite Hp. cbn [bind].
    assert (Ed : dim a k = Ok n) by (unfold dim; rewrite Hd; destruct k as [|[|[|k]]]; try lia; reflexivity).
    rewrite Ed. cbn [bind]. cbv zeta. set (f := nmul (clamp (nf32 (bitDepthToNormalized x d))) (nofZ (Z.of_nat n - 1))) in *.
    destruct (ofZ_exact L 0) as [F0 E0]; [lia|].
    assert (Et : ntrunc f = Zfloor (B2R f)).
    { unfold ntrunc. assert (X : nltb f n0 = false).
      { change (Bltb f (@nofZ fl (ieeeNum L) 0) = false). rewrite Bltb_correct by assumption. rewrite E0. apply Rlt_bool_false. lra. }
      rewrite X. now apply flFloor_R. }
    rewrite Et. set (z := Zfloor (B2R f)) in *. exists z, (nsub f (nofZ z)). split; [reflexivity|].
    pose proof (Zfloor_lb (B2R f)) as L1. pose proof (Zfloor_ub (B2R f)) as L2. fold z in L1, L2.
    assert (Hz : (0 <= z < Z.of_nat n)%Z).
    { split; [apply Zfloor_lub; lra|]. assert (z <= Z.of_nat n - 1)%Z; [|lia].
      rewrite <- (Zfloor_IZR (Z.of_nat n - 1)). apply Zfloor_le. rewrite INR_pred by lia. lra. }
    destruct (ofZ_exact L z) as [Fz Ez]; [lia|].
    assert (Rt : Rounds (nsub f (nofZ z)) (B2R f - IZR z)) by (rewrite <- Ez; apply minus_Rounds; assumption).
    assert (G7 : 1 <= bpow radix2 127) by (change 1 with (bpow radix2 0); apply bpow_le; lia).
    destruct (Rounds_finite _ _ 127 Rt) as [Fi Ei]; [rewrite Rabs_pos_eq; lra|lia|lia|].
    split; [exact Fi|]. split; [rewrite Ei; apply rnd_unit; [lia|lra]|].
    destruct (near _ _ Rt) as [_ Ci]; [rewrite Rabs_pos_eq; lra|]. rewrite (Rabs_pos_eq (B2R f - IZR z)) in Ci by lra.
    set (i := nsub f (nofZ z)) in *. assert (M1 : 1 <= INR (n - 1)) by (change 1 with (INR 1); apply le_INR; lia).
    set (m := INR (n - 1)) in *. set (Q := clampR (B2R x / fullScale d)) in *.
    destruct tiny as ((U0 & U1) & (S0 & S1) & T1 & E1 & S2).
    replace (IZR z + B2R i - Q * m) with ((B2R i - (B2R f - IZR z)) + (B2R f - Q * m)) by ring. eapply Rle_trans; [apply Rabs_triang|].
    set (e := bpow radix2 (-23)) in *. set (u := bpow radix2 (-53)) in *. set (s := bpow radix2 (-1075)) in *.
    assert (u * (B2R f - IZR z) <= u * 1) by (apply Rmult_le_compat_l; lra). assert (e * 1 <= e * m) by (apply Rmult_le_compat_l; lra). lra.
  Qed.

  Lemma store_close (q : fl) r M : size M -> is_finite q = true -> Rabs r <= M -> Rabs (B2R q - r) <= 90 * bpow radix2 (-53) * M ->
    is_finite (nf32 q) = true /\ Rabs (B2R (nf32 q) - r) <= 6 / 10 * bpow radix2 (-23) * M + bpow radix2 (-149).
  Proof.
    intros HM Fq Br Eq. pose proof (size_pos M HM) as M0. destruct HM as [_ HM].
    destruct tiny as ((U0 & U1) & (S0 & S1) & T1 & E1 & S2). destruct small_facts as (_ & _ & E24 & _ & _ & T150).
    assert (G7 : bpow radix2 127 = 2 * bpow radix2 126) by exact (bpow_plus radix2 1 126).
    set (e := bpow radix2 (-23)) in *. set (u := bpow radix2 (-53)) in *. set (t := bpow radix2 (-149)) in *.
    assert (uM : 0 <= u * M <= e * M / 100000) by (split; [apply Rmult_le_pos; lra|unfold Rdiv in *; nra]).
    assert (eM : 0 <= e * M <= M / 1000) by (split; [apply Rmult_le_pos; lra|rewrite E1; lra]).
    assert (Bq : Rabs (B2R q) <= 11 / 10 * M).
    { replace (B2R q) with (r + (B2R q - r)) by ring. eapply Rle_trans; [apply Rabs_triang|]. lra. }
    destruct (f32_finite q 127 Fq) as [Fy Ey]; [rewrite G7; lra|lia|lia|].
    change (nf32 q) with (f64 (f32of q)). split; [exact Fy|]. rewrite Ey.
    pose proof (rnd_rel (p := 24) (e := 128) (B2R q)) as H. change (2 - 128 - 24)%Z with (-150)%Z in H. change (- (24))%Z with (-24)%Z in H. rewrite E24, T150 in H. fold e t in H.
    replace (rnd (p := 24) (e := 128) (B2R q) - r) with ((rnd (p := 24) (e := 128) (B2R q) - B2R q) + (B2R q - r)) by ring. eapply Rle_trans; [apply Rabs_triang|].
    assert (e / 2 * Rabs (B2R q) <= e / 2 * (11 / 10 * M)) by (apply Rmult_le_compat_l; lra).
    assert (T0 := bpow_gt_0 radix2 (-149)). fold t in T0. lra.
  Qed.
End Position.

(** * The node *)
Section Node3D.
  Variable L : libm.
  #[local] Instance N3n : Num fl := ieeeNum L.

  Definition cubeFun (tet : bool) (a : array fl) (dIn : aval) (r g b : fl) : fl * fl * fl :=
    let p x := nf32 (bitDepthToNormalized x dIn) in
    match look tet a [p r; p g; p b] with Ok [x; y; z] => (nf32 x, nf32 y, nf32 z) | _ => (n0, n0, n0) end.

  Lemma axis_app {T} {N : Num T} (a : array T) px t k : (k < List.length px)%nat -> axis a (px ++ t) k = axis a px k.
  Proof.
    intro H. unfold axis. destruct (nth_error px k) as [v|] eqn:E; [|apply nth_error_None in E; lia].
    assert (E' : nth_error (px ++ t) k = Some v) by (now rewrite nth_error_app1).
    apply getn_some in E, E'. now rewrite E, E'.
  Qed.

  Lemma cube_acts c (h : header fl) dIn a n tet : isCube h (kindOf tet) dIn a n -> actsPerColour c (Node h BLUT3D) (cubeFun tet a dIn).
  Proof.
    intros [Hi [[d Ho] [Hc [Ha [Hw Hm]]]]] st values Hst.
    cbn [nodeProcess]. rewrite PChain.lut3d_form by lia. unfold dgetE. rewrite Hi, Ho. cbn [bind]. rewrite Ha, Hc.
    apply PAct.pixelwise_colour; [assumption|]. intros px Hl. rewrite PElem.lut3dPixel_form by assumption.
    destruct (PAct.three_of px ltac:(lia)) as [x [y [z [t ->]]]]. rewrite Hm.
    cbn [firstn mapMi skipn PElem.stage bind app]. cbv zeta.
    set (p := fun x => nf32 (bitDepthToNormalized x dIn)).
    assert (Ax : forall k v, (k < 3)%nat -> nth_error [p x; p y; p z] k = Some v -> exists zi, axis a [p x; p y; p z] k = Ok zi).
    { intros k v Hk Hv. unfold axis. apply getn_some in Hv. rewrite Hv. cbn [bind]. destruct Hw as [[rest Hd] _].
      assert (Ed : dim a k = Ok n) by (unfold dim; rewrite Hd; destruct k as [|[|[|k]]]; try lia; reflexivity). rewrite Ed. eexists; reflexivity. }
    destruct (Ax 0%nat _ ltac:(lia) eq_refl) as [[r fr] A0]. destruct (Ax 1%nat _ ltac:(lia) eq_refl) as [[g fg] A1]. destruct (Ax 2%nat _ ltac:(lia) eq_refl) as [[b fb] A2].
    assert (B0 := A0). assert (B1 := A1). assert (B2' := A2).
    rewrite <- (axis_app a [p x; p y; p z] t) in B0, B1, B2' by (cbn; lia).
    pose proof (look_T tet a n _ _ _ _ _ _ _ Hw A0 A1 A2) as K. pose proof (look_T tet a n _ _ _ _ _ _ _ Hw B0 B1 B2') as K'. cbn [app] in K'.
    unfold PAct.colourOf. cbn [nth skipn]. unfold cubeFun. fold p. cbv zeta. change (nf32 (bitDepthToNormalized x dIn)) with (p x).
    change (nf32 (bitDepthToNormalized y dIn)) with (p y). change (nf32 (bitDepthToNormalized z dIn)) with (p z).
    rewrite K. destruct tet; cbn [kindOf]; cbn [aval_eqb String.eqb Ascii.eqb Bool.eqb]; unfold look in K'; rewrite K'; cbn [bind set3]; reflexivity.
  Qed.

  Lemma clampZ_next n z : (1 <= n)%nat -> clampZ n (z + 1) = clampZ n z \/ (clampZ n (z + 1) = clampZ n z + 1 /\ clampZ n z + 1 < n)%nat.
  Proof. intro H. unfold clampZ. lia. Qed.

  Theorem lut3d_close c (h : header fl) (h' : header R) tet dIn a a' n :
    isCube h (kindOf tet) dIn a n -> isCube h' (kindOf tet) dIn a' n -> a_vals a' = map B2R (a_vals a) -> (2 <= n)%nat -> (Z.of_nat n <= 2 ^ 53)%Z ->
    exists F F', actsPerColour c (Node h BLUT3D) F /\ actsPerColour c (Node h' BLUT3D) F' /\
      forall ch M D, (ch < 3)%nat ->
        (forall i j k, (i < n)%nat -> (j < n)%nat -> (k < n)%nat -> is_finite (entry3D a n i j k ch) = true /\ Rabs (B2R (entry3D a n i j k ch)) <= M) ->
        M <= bpow radix2 125 -> smooth n D (fun i j k => B2R (entry3D a n i j k ch)) ->
        forall r g b, is_finite r = true -> is_finite g = true -> is_finite b = true ->
          Rabs (B2R r) <= bpow radix2 126 -> Rabs (B2R g) <= bpow radix2 126 -> Rabs (B2R b) <= bpow radix2 126 ->
          within 4 (M + INR (n - 1) * D) (component ch (F' (B2R r) (B2R g) (B2R b))) (component ch (F r g b)).
  Proof.
    intros H H' Hv Hn Hm. exists (cubeFun tet a dIn), (lut3dFun tet a' dIn n). split; [now apply (cube_acts c h dIn a n)|].
    destruct H' as (H1 & H2 & H3 & H4 & H5 & H6). split; [apply lut3d_plain; [repeat split; try assumption; apply H5|exact H6]|].
    intros ch M D Hch He HM HD r g b Fr Fg Fb Br Bg Bb. destruct H as (_ & _ & _ & _ & Hw & _).
    assert (S : forall x : fl, Rabs (B2R x) <= bpow radix2 126 -> Rabs (B2R x / fullScale dIn) <= bpow radix2 126).
    { intros x Hx. destruct (scale_cases L dIn x) as (z & E & Hz & _). rewrite E. assert (P : 1 <= IZR z) by (apply IZR_le; lia).
      unfold Rdiv. rewrite Rabs_mult, (Rabs_pos_eq (/ IZR z)) by (left; apply Rinv_0_lt_compat; lra).
      apply Rle_trans with (2 := Hx). rewrite <- (Rmult_1_r (Rabs (B2R x))) at 2. apply Rmult_le_compat_l; [apply Rabs_pos|].
      rewrite <- Rinv_1. apply Rinv_le; lra. }
    set (p := fun x => nf32 (bitDepthToNormalized x dIn)).
    destruct (axis_ieee L a n dIn [p r; p g; p b] 0 r Hw Hn Hm ltac:(lia) eq_refl Fr (S r Br)) as (zr & fr & Ar & Ffr & Bfr & Er).
    destruct (axis_ieee L a n dIn [p r; p g; p b] 1 g Hw Hn Hm ltac:(lia) eq_refl Fg (S g Bg)) as (zg & fg & Ag & Ffg & Bfg & Eg).
    destruct (axis_ieee L a n dIn [p r; p g; p b] 2 b Hw Hn Hm ltac:(lia) eq_refl Fb (S b Bb)) as (zb & fb & Ab & Ffb & Bfb & Eb).
    assert (K : look tet a [p r; p g; p b] = Ok [interpT tet (gridT a n 0) zr zg zb fr fg fb; interpT tet (gridT a n 1) zr zg zb fr fg fb; interpT tet (gridT a n 2) zr zg zb fr fg fb])
      by exact (look_T tet a n _ _ _ _ _ _ _ Hw Ar Ag Ab).
    assert (EF : component ch (cubeFun tet a dIn r g b) = nf32 (interpT tet (gridT a n ch) zr zg zb fr fg fb)).
    { change (cubeFun tet a dIn r g b) with (match look tet a [p r; p g; p b] with Ok [x; y; z] => (nf32 x, nf32 y, nf32 z) | _ => (n0, n0, n0) end). rewrite K. destruct ch as [|[|[|ch]]]; try lia; reflexivity. }
    rewrite EF. clear EF K Ar Ag Ab.
    set (E := fun i j k => B2R (gridT a n ch i j k)).
    assert (EE : forall i j k, grid a' n ch i j k = E i j k).
    { intros. unfold grid, E, gridT, entry3D. rewrite Hv. rewrite <- (map_nth B2R). reflexivity. }
    assert (EG : component ch (lut3dFun tet a' dIn n (B2R r) (B2R g) (B2R b)) =
      at3 tet E (clampR (B2R r / fullScale dIn) * INR (n - 1)) (clampR (B2R g / fullScale dIn) * INR (n - 1)) (clampR (B2R b / fullScale dIn) * INR (n - 1))).
    { transitivity (at3 tet (grid a' n ch) (clampR (B2R r / fullScale dIn) * INR (n - 1)) (clampR (B2R g / fullScale dIn) * INR (n - 1)) (clampR (B2R b / fullScale dIn) * INR (n - 1))).
      - destruct ch as [|[|[|ch]]]; try lia; reflexivity.
      - unfold at3. destruct tet; unfold interpV, tetV, triV; cbv zeta; rewrite !EE; reflexivity. }
    rewrite EG. clear EG EE.
    assert (Hcl : forall z, (clampZ n z < n)%nat) by (intro z; apply clampZ_lt; lia).
    assert (D0 : 0 <= D) by (destruct (HD 0%nat 0%nat 0%nat) as [A _]; [lia|lia|lia|]; eapply Rle_trans; [apply Rabs_pos|exact A]).
    assert (Same : forall x, Rabs (x - x) <= D) by (intro x; rewrite Rminus_diag_eq, Rabs_R0 by reflexivity; exact D0).
    assert (S1 : steps D E).
    { intros i j k. unfold E, gridT. destruct (clampZ_next n i ltac:(lia)) as [Q|[Q1 Q2]]; [rewrite Q; apply Same|rewrite Q1]. now apply HD. }
    assert (S2 : steps D (swapRG E)).
    { intros i j k. unfold swapRG, E, gridT. destruct (clampZ_next n i ltac:(lia)) as [Q|[Q1 Q2]]; [rewrite Q; apply Same|rewrite Q1]. now apply HD. }
    assert (S3 : steps D (swapRB E)).
    { intros i j k. unfold swapRB, E, gridT. destruct (clampZ_next n i ltac:(lia)) as [Q|[Q1 Q2]]; [rewrite Q; apply Same|rewrite Q1]. now apply HD. }
    assert (M0 : 0 <= M) by (destruct (He 0%nat 0%nat 0%nat) as [_ A]; [lia|lia|lia|]; eapply Rle_trans; [apply Rabs_pos|exact A]).
    set (M' := M + bpow radix2 (-1000)).
    assert (HS : size M').
    { unfold size, M'. split.
      - apply Rle_trans with (bpow radix2 (-53) * bpow radix2 (-1000)).
        + rewrite <- bpow_plus. apply Rle_trans with (bpow radix2 10 * bpow radix2 (-1075)); [|rewrite <- bpow_plus; apply bpow_le; lia].
          apply Rmult_le_compat_r; [apply bpow_ge_0|]. change (bpow radix2 10) with 1024. lra.
        + apply Rmult_le_compat_l; [apply bpow_ge_0|lra].
      - assert (bpow radix2 126 = 2 * bpow radix2 125) by exact (bpow_plus radix2 1 125).
        assert (bpow radix2 (-1000) <= bpow radix2 125) by (apply bpow_le; lia). lra. }
    assert (Tp : 0 < bpow radix2 (-1000)) by apply bpow_gt_0.
    assert (He' : forall i j k, is_finite (gridT a n ch i j k) = true /\ Rabs (B2R (gridT a n ch i j k)) <= M').
    { intros i j k. destruct (He (clampZ n i) (clampZ n j) (clampZ n k)) as [A C]; try apply Hcl. split; [exact A|]. unfold M'. unfold gridT. lra. }
    destruct (interp_close L tet (gridT a n ch) zr zg zb fr fg fb M' HS He' Ffr Ffg Ffb Bfr Bfg Bfb) as [Fq Eq].
    change (interpV tet (fun i j k => B2R (gridT a n ch i j k))) with (interpV tet E) in Eq.
    assert (Bv : Rabs (interpV tet E zr zg zb (B2R fr) (B2R fg) (B2R fb)) <= M').
    { destruct (interp_weights tet (B2R fr) (B2R fg) (B2R fb) Bfr Bfg Bfb) as (w0 & w1 & w2 & w3 & w4 & w5 & w6 & w7 & W0 & W1 & W2 & W3 & W4 & W5 & W6 & W7 & WS & _ & _ & _ & WE).
      rewrite WE.
      assert (Q : forall w i j k, 0 <= w -> - (w * M') <= w * E i j k <= w * M').
      { intros w i j k Hw0. destruct (He' i j k) as [_ A]. apply Rabs_le_inv in A. fold (E i j k) in A. split; nra. }
      assert (QM : M' = w0 * M' + w1 * M' + w2 * M' + w3 * M' + w4 * M' + w5 * M' + w6 * M' + w7 * M') by (transitivity ((w0 + w1 + w2 + w3 + w4 + w5 + w6 + w7) * M'); [rewrite WS; ring|ring]).
      pose proof (Q w0 zr zg zb W0). pose proof (Q w1 zr zg (zb + 1)%Z W1). pose proof (Q w2 zr (zg + 1)%Z zb W2). pose proof (Q w3 zr (zg + 1)%Z (zb + 1)%Z W3).
      pose proof (Q w4 (zr + 1)%Z zg zb W4). pose proof (Q w5 (zr + 1)%Z zg (zb + 1)%Z W5). pose proof (Q w6 (zr + 1)%Z (zg + 1)%Z zb W6). pose proof (Q w7 (zr + 1)%Z (zg + 1)%Z (zb + 1)%Z W7).
      apply Rabs_le. lra. }
    destruct (store_close L _ _ M' HS Fq Bv Eq) as [Fy Ey].
    split; [exact Fy|]. rewrite <- at3_cell in Ey by assumption.
    set (y := nf32 (interpT tet (gridT a n ch) zr zg zb fr fg fb)) in *. clearbody y.
    pose proof (slope3 tet E D (clampR (B2R r / fullScale dIn) * INR (n - 1)) (IZR zr + B2R fr) (clampR (B2R g / fullScale dIn) * INR (n - 1)) (IZR zg + B2R fg)
      (clampR (B2R b / fullScale dIn) * INR (n - 1)) (IZR zb + B2R fb) D0 S1 S2 S3) as Sl.
    set (exact := at3 tet E (clampR (B2R r / fullScale dIn) * INR (n - 1)) (clampR (B2R g / fullScale dIn) * INR (n - 1)) (clampR (B2R b / fullScale dIn) * INR (n - 1))) in *.
    set (here := at3 tet E (IZR zr + B2R fr) (IZR zg + B2R fg) (IZR zb + B2R fb)) in *. clearbody exact here.
    assert (M1 : 1 <= INR (n - 1)) by (change 1 with (INR 1); apply le_INR; lia). set (m := INR (n - 1)) in *.
    replace (B2R y - exact) with ((B2R y - here) + (here - exact)) by ring. eapply Rle_trans; [apply Rabs_triang|].
    assert (DS : D * (Rabs (IZR zr + B2R fr - clampR (B2R r / fullScale dIn) * m) + Rabs (IZR zg + B2R fg - clampR (B2R g / fullScale dIn) * m) + Rabs (IZR zb + B2R fb - clampR (B2R b / fullScale dIn) * m))
      <= D * (306 / 100 * bpow radix2 (-23) * m)) by (apply Rmult_le_compat_l; lra).
    destruct tiny as (_ & _ & _ & E1 & _). assert (T8 : bpow radix2 (-149) <= bpow radix2 (-148)) by (apply bpow_le; lia).
    assert (T9 : bpow radix2 (-1000) <= bpow radix2 (-148)) by (apply bpow_le; lia). assert (T0 := bpow_gt_0 radix2 (-148)).
    unfold M' in Ey. set (e := bpow radix2 (-23)) in *. assert (0 <= e * M) by (apply Rmult_le_pos; lra). assert (0 <= e * (m * D)) by (repeat apply Rmult_le_pos; lra).
    assert (e * bpow radix2 (-1000) <= 1 * bpow radix2 (-1000)) by (apply Rmult_le_compat_r; lra).
    replace (4 * (e * (M + m * D) + bpow radix2 (-148))) with (4 * (e * M) + 4 * (e * (m * D)) + 4 * bpow radix2 (-148)) by ring.
    replace (D * (306 / 100 * e * m)) with (306 / 100 * (e * (m * D))) in DS by ring. lra.
  Qed.
End Node3D.
