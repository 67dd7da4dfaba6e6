(** The 3D interpolations as functions of the position: how much they change. *)
From Coq Require Import Reals Lra Lia ZArith List Psatz.
From Flocq Require Import Core.
From Verif Require Import PLut3D.
Local Open Scope R_scope.

(** A function that changes by at most [D] per unit in every cell does so everywhere. *)
Lemma chain (F : R -> R) D : 0 <= D ->
  (forall z s t, IZR z <= s -> s <= t -> t <= IZR (z + 1) -> Rabs (F t - F s) <= D * (t - s)) ->
  forall s t, Rabs (F t - F s) <= D * Rabs (t - s).
Proof.
  intros HD H.
  assert (U : forall m s t, s <= t -> (Zfloor t <= Zfloor s + Z.of_nat m)%Z -> Rabs (F t - F s) <= D * (t - s)).
  { induction m as [|m IH]; intros s t Hst Hm.
    - apply (H (Zfloor s)); [apply Zfloor_lb|exact Hst|]. pose proof (Zfloor_ub t). apply Rle_trans with (IZR (Zfloor t) + 1); [lra|].
      rewrite plus_IZR. assert (IZR (Zfloor t) <= IZR (Zfloor s)) by (apply IZR_le; lia). lra.
    - destruct (Z.eq_dec (Zfloor t) (Zfloor s)) as [E|E].
      + apply (IH s t Hst). lia.
      + assert (Hf : (Zfloor s <= Zfloor t)%Z) by (now apply Zfloor_le).
        set (q := IZR (Zfloor s + 1)). assert (Q1 : s <= q) by (unfold q; rewrite plus_IZR; pose proof (Zfloor_ub s); lra).
        assert (Q2 : q <= t) by (unfold q; apply Rle_trans with (IZR (Zfloor t)); [apply IZR_le; lia|apply Zfloor_lb]).
        pose proof (H (Zfloor s) s q (Zfloor_lb s) Q1 (Rle_refl _)) as A.
        assert (B : Rabs (F t - F q) <= D * (t - q)) by (apply IH; [exact Q2|]; unfold q; rewrite Zfloor_IZR; lia).
        replace (F t - F s) with ((F t - F q) + (F q - F s)) by ring. eapply Rle_trans; [apply Rabs_triang|]. lra. }
  intros s t. destruct (Rle_or_lt s t) as [L|L].
  - rewrite (Rabs_pos_eq (t - s)) by lra. apply (U (Z.to_nat (Zfloor t - Zfloor s)) s t L). lia.
  - rewrite Rabs_minus_sym, (Rabs_minus_sym t s), (Rabs_pos_eq (s - t)) by lra. apply (U (Z.to_nat (Zfloor s - Zfloor t)) t s); [lra|lia].
Qed.

Definition swapRG (e : Z -> Z -> Z -> R) (r g b : Z) : R := e g r b.
Definition swapRB (e : Z -> Z -> Z -> R) (r g b : Z) : R := e b g r.

Lemma tet_swapRG e r g b fx fy fz : tetV (swapRG e) g r b fy fx fz = tetV e r g b fx fy fz.
Proof. unfold tetV, swapRG. cbv zeta. orders; ties; tie fx fy; tie fx fz; tie fy fz; ring. Qed.
Lemma tet_swapRB e r g b fx fy fz : tetV (swapRB e) b g r fz fy fx = tetV e r g b fx fy fz.
Proof. unfold tetV, swapRB. cbv zeta. orders; ties; tie fx fy; tie fx fz; tie fy fz; ring. Qed.
Lemma interp_swapRG tet e r g b fx fy fz : interpV tet (swapRG e) g r b fy fx fz = interpV tet e r g b fx fy fz.
Proof. destruct tet; [apply tet_swapRG|]. unfold interpV, triV, swapRG. ring. Qed.
Lemma interp_swapRB tet e r g b fx fy fz : interpV tet (swapRB e) b g r fz fy fx = interpV tet e r g b fx fy fz.
Proof. destruct tet; [apply tet_swapRB|]. unfold interpV, triV, swapRB. ring. Qed.

(** One step along the first axis changes the grid by at most [D]. *)
Definition steps (D : R) (e : Z -> Z -> Z -> R) : Prop := forall i j k, Rabs (e (i + 1)%Z j k - e i j k) <= D.

Lemma three_parts D p q r x y z : 0 <= p -> 0 <= q -> 0 <= r -> Rabs x <= D -> Rabs y <= D -> Rabs z <= D ->
  Rabs (p * x + q * y + r * z) <= D * (p + q + r).
Proof.
  intros Hp Hq Hr Hx Hy Hz. eapply Rle_trans; [apply Rabs_triang|].
  assert (K : forall a w, 0 <= a -> Rabs w <= D -> Rabs (a * w) <= D * a).
  { intros a w Ha Hw. rewrite Rabs_mult, (Rabs_pos_eq a) by assumption. rewrite Rmult_comm. now apply Rmult_le_compat_r. }
  pose proof (Rabs_triang (p * x) (q * y)). pose proof (K p x Hp Hx). pose proof (K q y Hq Hy). pose proof (K r z Hr Hz). lra.
Qed.

(** The tetrahedral value as a path along the first axis. *)
Definition lowOf (fx fy fz : R) := Rmin fx (Rmin fy fz).
Definition midOf (fx fy fz : R) := Rmin fx (Rmax fy fz).
Lemma tet_path e r g b fx fy fz : 0 <= fx <= 1 -> 0 <= fy <= 1 -> 0 <= fz <= 1 ->
  tetV e r g b fx fy fz = tetV e r g b 0 fy fz
    + lowOf fx fy fz * (e (r + 1)%Z (g + 1)%Z (b + 1)%Z - e r (g + 1)%Z (b + 1)%Z)
    + (midOf fx fy fz - lowOf fx fy fz) * (if Rltb fy fz then e (r + 1)%Z g (b + 1)%Z - e r g (b + 1)%Z else e (r + 1)%Z (g + 1)%Z b - e r (g + 1)%Z b)
    + (fx - midOf fx fy fz) * (e (r + 1)%Z g b - e r g b).
Proof.
  intros Hx Hy Hz. unfold tetV, lowOf, midOf, Rmin, Rmax. cbv zeta. orders; repeat destruct (Rle_dec _ _);
    try (exfalso; lra); try ring; tie fx fy; tie fx fz; tie fy fz; tie fy 0; tie fz 0; tie fx 0; ring.
Qed.

Lemma cell_slope tet e D r g b f f' fy fz : steps D e -> 0 <= f -> f <= f' -> f' <= 1 -> 0 <= fy <= 1 -> 0 <= fz <= 1 ->
  Rabs (interpV tet e r g b f' fy fz - interpV tet e r g b f fy fz) <= D * (f' - f).
Proof.
  intros H H0 H1 H2 Hy Hz. destruct tet; cbn [interpV].
  - rewrite (tet_path e r g b f'), (tet_path e r g b f) by lra.
    set (x := e (r + 1)%Z (g + 1)%Z (b + 1)%Z - e r (g + 1)%Z (b + 1)%Z). set (z := e (r + 1)%Z g b - e r g b).
    set (y := if Rltb fy fz then _ else _).
    assert (Hx : Rabs x <= D) by apply H. assert (Hz' : Rabs z <= D) by apply H.
    assert (Hy' : Rabs y <= D) by (unfold y; destruct (Rltb fy fz); apply H).
    match goal with |- Rabs ?A <= _ => replace A with ((lowOf f' fy fz - lowOf f fy fz) * x
      + ((midOf f' fy fz - lowOf f' fy fz) - (midOf f fy fz - lowOf f fy fz)) * y + ((f' - midOf f' fy fz) - (f - midOf f fy fz)) * z) by ring end.
    replace (f' - f) with ((lowOf f' fy fz - lowOf f fy fz) + ((midOf f' fy fz - lowOf f' fy fz) - (midOf f fy fz - lowOf f fy fz)) + ((f' - midOf f' fy fz) - (f - midOf f fy fz))) by ring.
    apply three_parts; try assumption; unfold lowOf, midOf, Rmin, Rmax; repeat destruct (Rle_dec _ _); lra.
  - unfold triV.
    match goal with |- Rabs ?A <= _ => replace A with ((f' - f) *
      ((1 - fy) * ((1 - fz) * (e (r + 1)%Z g b - e r g b) + fz * (e (r + 1)%Z g (b + 1)%Z - e r g (b + 1)%Z)) +
       fy * ((1 - fz) * (e (r + 1)%Z (g + 1)%Z b - e r (g + 1)%Z b) + fz * (e (r + 1)%Z (g + 1)%Z (b + 1)%Z - e r (g + 1)%Z (b + 1)%Z)))) by ring end.
    rewrite Rabs_mult, (Rabs_pos_eq (f' - f)), Rmult_comm by lra. apply Rmult_le_compat_r; [lra|].
    assert (K : forall w x y, 0 <= w <= 1 -> Rabs x <= D -> Rabs y <= D -> Rabs ((1 - w) * x + w * y) <= D).
    { intros w x y Hw Hx' Hy'. eapply Rle_trans; [apply Rabs_triang|]. rewrite !Rabs_mult, (Rabs_pos_eq (1 - w)), (Rabs_pos_eq w) by lra. nra. }
    apply K; [assumption| |]; apply K; try assumption; apply H.
Qed.

(** The interpolation at a position of the whole grid. *)
Definition at3 (tet : bool) (e : Z -> Z -> Z -> R) (r g b : R) : R :=
  interpV tet e (Zfloor r) (Zfloor g) (Zfloor b) (r - IZR (Zfloor r)) (g - IZR (Zfloor g)) (b - IZR (Zfloor b)).
Lemma frac x : 0 <= x - IZR (Zfloor x) <= 1.
Proof. pose proof (Zfloor_lb x). pose proof (Zfloor_ub x). lra. Qed.
Lemma at3_cell tet e i j k fr fg fb : 0 <= fr <= 1 -> 0 <= fg <= 1 -> 0 <= fb <= 1 ->
  at3 tet e (IZR i + fr) (IZR j + fg) (IZR k + fb) = interpV tet e i j k fr fg fb.
Proof. intros. unfold at3. now apply interp_cell. Qed.

Lemma slope_r tet e D r r' g b : 0 <= D -> steps D e -> Rabs (at3 tet e r' g b - at3 tet e r g b) <= D * Rabs (r' - r).
Proof.
  intros HD H. apply (chain (fun r => at3 tet e r g b) D HD). intros z s t Hs Hst Ht. cbv beta. rewrite plus_IZR in Ht.
  assert (E : forall x, IZR z <= x -> x <= IZR z + 1 -> at3 tet e x g b = interpV tet e z (Zfloor g) (Zfloor b) (x - IZR z) (g - IZR (Zfloor g)) (b - IZR (Zfloor b))).
  { intros x H1 H2. rewrite <- at3_cell by (try apply frac; lra). f_equal; ring. }
  rewrite (E t), (E s) by lra. replace (t - s) with ((t - IZR z) - (s - IZR z)) by ring. apply cell_slope; try apply frac; try assumption; lra.
Qed.
Lemma slope3 tet e D r r' g g' b b' : 0 <= D -> steps D e -> steps D (swapRG e) -> steps D (swapRB e) ->
  Rabs (at3 tet e r' g' b' - at3 tet e r g b) <= D * (Rabs (r' - r) + Rabs (g' - g) + Rabs (b' - b)).
Proof.
  intros HD H1 H2 H3.
  assert (G : forall x y z, at3 tet e x y z = at3 tet (swapRG e) y x z) by (intros; unfold at3; symmetry; apply interp_swapRG).
  assert (B : forall x y z, at3 tet e x y z = at3 tet (swapRB e) z y x) by (intros; unfold at3; symmetry; apply interp_swapRB).
  pose proof (slope_r tet e D r r' g' b' HD H1) as A1.
  pose proof (slope_r tet (swapRG e) D g g' r b' HD H2) as A2. rewrite <- !G in A2.
  pose proof (slope_r tet (swapRB e) D b b' g r HD H3) as A3. rewrite <- !B in A3.
  replace (at3 tet e r' g' b' - at3 tet e r g b) with ((at3 tet e r' g' b' - at3 tet e r g' b') + (at3 tet e r g' b' - at3 tet e r g b') + (at3 tet e r g b' - at3 tet e r g b)) by ring.
  eapply Rle_trans; [apply Rabs_triang|]. pose proof (Rabs_triang (at3 tet e r' g' b' - at3 tet e r g' b') (at3 tet e r g' b' - at3 tet e r g b')). lra.
Qed.
