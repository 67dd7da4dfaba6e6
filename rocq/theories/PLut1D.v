(** LUT1D and IndexMap in exact arithmetic. *)
From Coq Require Import Lra.
From Flocq Require Import Core.
From Verif Require Export PRange.
Local Open Scope R_scope.

(* ------------------------------------------------------------------ *)
(** * Piecewise linear interpolation *)

Definition lin (e : Z -> R) (t : R) : R :=
  (1 - (t - IZR (Zfloor t))) * e (Zfloor t) + (t - IZR (Zfloor t)) * e (Zceil t).

Lemma lin_cell e t z : IZR z <= t <= IZR (z + 1) -> lin e t = e z + (t - IZR z) * (e (z + 1)%Z - e z).
Proof.
  intros [H1 H2]. unfold lin. destruct (Req_dec t (IZR (z + 1))) as [->|Hn].
  - rewrite Zfloor_IZR, Zceil_IZR. rewrite plus_IZR in *. lra.
  - assert (Ef : Zfloor t = z) by (apply Zfloor_imp; lra). rewrite Ef.
    destruct (Req_dec t (IZR z)) as [->|Hn2].
    + rewrite Zceil_IZR. lra.
    + rewrite Zceil_floor_neq by (rewrite Ef; lra). rewrite Ef. lra.
Qed.

Lemma lin_at e z : lin e (IZR z) = e z.
Proof. rewrite (lin_cell e (IZR z) z). lra. rewrite plus_IZR. lra. Qed.

Lemma lin_bounds e t z : IZR z <= t <= IZR (z + 1) -> Rmin (e z) (e (z + 1)%Z) <= lin e t <= Rmax (e z) (e (z + 1)%Z).
Proof.
  intro H. rewrite (lin_cell e t z H). rewrite plus_IZR in H. set (u := t - IZR z). assert (0 <= u <= 1) by (unfold u; lra).
  destruct (Rle_dec (e z) (e (z + 1)%Z)).
  - rewrite Rmin_left, Rmax_right by lra. nra.
  - rewrite Rmin_right, Rmax_left by lra. nra.
Qed.

Lemma mono_steps (e : Z -> R) : (forall z, e z <= e (z + 1)%Z) -> forall a b, (a <= b)%Z -> e a <= e b.
Proof.
  intros H a b Hab. replace b with (a + Z.of_nat (Z.to_nat (b - a)))%Z by lia.
  induction (Z.to_nat (b - a)) as [|k IH]; [rewrite Z.add_0_r; lra|].
  eapply Rle_trans; [exact IH|]. replace (a + Z.of_nat (S k))%Z with (a + Z.of_nat k + 1)%Z by lia. apply H.
Qed.

Lemma lin_mono e : (forall z, e z <= e (z + 1)%Z) -> forall s t, s <= t -> lin e s <= lin e t.
Proof.
  intros H s t Hst.
  pose proof (Zfloor_lb s) as A1. pose proof (Zfloor_ub s) as A2.
  pose proof (Zfloor_lb t) as B1. pose proof (Zfloor_ub t) as B2.
  set (a := Zfloor s) in *. set (b := Zfloor t) in *.
  assert (Hab : (a <= b)%Z) by (apply Zfloor_le; exact Hst).
  assert (Es : lin e s = e a + (s - IZR a) * (e (a + 1)%Z - e a)) by (apply lin_cell; rewrite plus_IZR; lra).
  assert (Et : lin e t = e b + (t - IZR b) * (e (b + 1)%Z - e b)) by (apply lin_cell; rewrite plus_IZR; lra).
  rewrite Es, Et. pose proof (H a) as Ha. pose proof (H b) as Hb.
  destruct (Z.eq_dec a b) as [Eab|Hne].
  - rewrite <- Eab. assert (0 <= (t - s) * (e (a + 1)%Z - e a)) by (apply Rmult_le_pos; lra). lra.
  - pose proof (mono_steps e H (a + 1) b ltac:(lia)) as Hm.
    assert ((s - IZR a) * (e (a + 1)%Z - e a) <= 1 * (e (a + 1)%Z - e a)) by (apply Rmult_le_compat_r; lra).
    assert (0 <= (t - IZR b) * (e (b + 1)%Z - e b)) by (apply Rmult_le_pos; lra). lra.
Qed.

(* ------------------------------------------------------------------ *)
(** * Tables *)

Definition clampZ (n : nat) (z : Z) : nat := Z.to_nat (Z.max 0 (Z.min z (Z.of_nat n - 1))).

Lemma clampZ_lt n z : (1 <= n)%nat -> (clampZ n z < n)%nat.
Proof. unfold clampZ. lia. Qed.
Lemma clampZ_in n k : (k < n)%nat -> clampZ n (Z.of_nat k) = k.
Proof. unfold clampZ. lia. Qed.
Lemma clampZ_low n z : (z <= 0)%Z -> clampZ n z = 0%nat.
Proof. unfold clampZ. lia. Qed.
Lemma clampZ_high n z : (Z.of_nat n - 1 <= z)%Z -> clampZ n z = (n - 1)%nat.
Proof. unfold clampZ. lia. Qed.

Lemma pyget_nth (l : list R) z : (0 <= z < Z.of_nat (List.length l))%Z -> pyget l z = Ok (nth (Z.to_nat z) l 0).
Proof.
  intro H. unfold pyget. assert (E : (z <? 0)%Z = false) by (apply Z.ltb_ge; lia). rewrite E. cbv zeta. rewrite ?E.
  rewrite (nth_error_nth' l 0) by lia. reflexivity.
Qed.

Lemma lookup1D_R (a : array R) n z ch :
  wellFormed1D a -> hd_error (a_dims a) = Some n -> (ch < 3)%nat ->
  lookup1D a z ch = Ok (entry1D a (clampZ n z) ch).
Proof.
  intros [d0 [d1 [rest [Hd [H0 [H1 Hl]]]]]] Hn Hc. rewrite Hd in Hn. injection Hn as ->.
  unfold lookup1D, entry1D, dim. rewrite Hd. cbn [getn nth_error bind]. cbv zeta.
  pose proof (clampZ_lt n z H0) as Hk. set (k := clampZ n z) in *.
  rewrite Nat.min_r by lia.
  destruct (Nat.eqb d1 3) eqn:E3.
  - apply Nat.eqb_eq in E3. subst d1.
    assert (E : forall z', z' = Z.of_nat (k * 3 + ch) -> pyget (a_vals a) z' = Ok (nth (k * 3 + ch) (a_vals a) 0)).
    { intros z' ->. rewrite pyget_nth by lia. do 2 f_equal. lia. }
    destruct (z <? 0)%Z eqn:E1; [apply Z.ltb_lt in E1; apply E; unfold k; rewrite clampZ_low; lia|].
    apply Z.ltb_ge in E1.
    destruct (Z.of_nat n <=? z)%Z eqn:E2.
    + apply Z.leb_le in E2. apply E. unfold k. rewrite clampZ_high; lia.
    + apply Z.leb_gt in E2. apply E. unfold k, clampZ. lia.
  - assert (Hr : match d1 with 3 => nth (k * 3 + ch) (a_vals a) n0 | _ => nth k (a_vals a) n0 end = nth k (a_vals a) 0).
    { apply Nat.eqb_neq in E3. destruct d1 as [|[|[|[|d1]]]]; try reflexivity. congruence. }
    rewrite Hr. assert (Hk2 : (k < List.length (a_vals a))%nat) by nia.
    assert (E : forall z', z' = Z.of_nat k -> pyget (a_vals a) z' = Ok (nth k (a_vals a) 0)).
    { intros z' ->. rewrite pyget_nth by lia. do 2 f_equal. lia. }
    destruct (z <? 0)%Z eqn:E1; [apply Z.ltb_lt in E1; apply E; unfold k; rewrite clampZ_low; lia|].
    apply Z.ltb_ge in E1.
    destruct (Z.of_nat n <=? z)%Z eqn:E2.
    + apply Z.leb_le in E2. apply E. unfold k. rewrite clampZ_high; lia.
    + apply Z.leb_gt in E2. apply E. unfold k, clampZ. lia.
Qed.

Definition entryZ (a : array R) (n ch : nat) (z : Z) : R := entry1D a (clampZ n z) ch.

Lemma lookupLinear_R (a : array R) n x ch :
  wellFormed1D a -> hd_error (a_dims a) = Some n -> (ch < 3)%nat ->
  lookup1DLinear a x ch = Ok (lin (entryZ a n ch) (x * IZR (Z.of_nat n - 1))).
Proof.
  intros Hw Hn Hc. unfold lookup1DLinear, dim.
  assert (Ed : getn (a_dims a) 0 = Ok n) by (destruct (a_dims a); [discriminate|injection Hn as ->; reflexivity]).
  rewrite Ed. cbn [bind]. cbv zeta. realize. cbn [orb].
  rewrite !(lookup1D_R a n _ ch Hw Hn Hc). cbn [bind]. reflexivity.
Qed.

Lemma INR_pred n : (1 <= n)%nat -> IZR (Z.of_nat n - 1) = INR (n - 1).
Proof. intro H. rewrite INR_IZR_INZ. f_equal. lia. Qed.

(** The function of one channel. *)
Definition lutFun (a : array R) (dIn : aval) (n ch : nat) (x : R) : R :=
  lin (entryZ a n ch) (x / fullScale dIn * INR (n - 1)).

Lemma wf_pos (a : array R) n : wellFormed1D a -> hd_error (a_dims a) = Some n -> (1 <= n)%nat.
Proof. intros [d0 [d1 [rest [Hd [H0 _]]]]] Hn. rewrite Hd in Hn. injection Hn as ->. assumption. Qed.

Lemma isLUT1D_cubic (h : header R) : dget (h_attrs h) "interpolation" <> Some (AStr "cubic") ->
  match dget (h_attrs h) "interpolation" with Some v => aval_eqb v (AStr "cubic") | None => false end = false.
Proof.
  intro H. destruct (dget _ _) as [v|]; [|reflexivity]. destruct (aval_eqb v _) eqn:E; [|reflexivity].
  destruct v; cbn in E; try discriminate. apply String.eqb_eq in E. congruence.
Qed.

Lemma lut1d_lookups c h dIn a n (pos : nat -> R -> R) :
  isLUT1D h dIn a n ->
  (forall ch x, (ch < 3)%nat -> stage (indexMaps (h_elems h)) a dIn ch 0 x = Ok (pos ch x)) ->
  actsPerChannel c (Node h BLUT1D) (fun ch x => lin (entryZ a n ch) (pos ch x * INR (n - 1))).
Proof.
  intros [Hi [[d Ho] [Hc [Hf [Ha [Hw Hn]]]]]] Hp st values Hst.
  cbn [nodeProcess]. rewrite lut1d_form by lia. unfold dgetE. rewrite Hi, Ho. cbn [bind]. rewrite Ha.
  rewrite (isLUT1D_cubic h Hc), Hf.
  apply pixelwise_colour; [assumption|]. intros px Hl. rewrite lut1dPixel_form by assumption.
  apply (mapMi3 _ (fun ch x => lin (entryZ a n ch) (pos ch x * INR (n - 1)))); [lia|].
  intros k x Hk. unfold lut1dElem. rewrite Hp by assumption. cbn [bind]. unfold lookup1.
  rewrite (lookupLinear_R a n _ k Hw Hn Hk). cbn [bind]. rewrite INR_pred by (eapply wf_pos; eauto). reflexivity.
Qed.

Lemma lut1d_plain c h dIn a n :
  isLUT1D h dIn a n -> indexMaps (h_elems h) = [] -> actsPerChannel c (Node h BLUT1D) (lutFun a dIn n).
Proof.
  intros H Hm. unfold lutFun. refine (lut1d_lookups c h dIn a n (fun _ x => x / fullScale dIn) H _). intros ch x _. rewrite Hm. unfold stage.
  rewrite normalize_R. reflexivity.
Qed.

Lemma entryZ_nat a n ch k : (k < n)%nat -> entryZ a n ch (Z.of_nat k) = entry1D a k ch.
Proof. intro H. unfold entryZ. now rewrite clampZ_in. Qed.

Lemma lin_const e c : (forall z, e z = c) -> forall t, lin e t = c.
Proof. intros H t. unfold lin. rewrite !H. lra. Qed.

(** Saturation outside the table. *)
Lemma lin_low a n ch t : (1 <= n)%nat -> t <= 0 -> lin (entryZ a n ch) t = entry1D a 0 ch.
Proof.
  intros Hn Ht. unfold lin.
  assert ((Zfloor t <= 0)%Z) by (apply le_IZR; eapply Rle_trans; [apply Zfloor_lb|exact Ht]).
  assert ((Zceil t <= 0)%Z) by (apply Zceil_glb; exact Ht).
  unfold entryZ. rewrite !clampZ_low by assumption. lra.
Qed.
Lemma lin_high a n ch t : (1 <= n)%nat -> INR (n - 1) <= t -> lin (entryZ a n ch) t = entry1D a (n - 1) ch.
Proof.
  intros Hn Ht. unfold lin. rewrite <- INR_pred in Ht by assumption.
  assert ((Z.of_nat n - 1 <= Zfloor t)%Z) by (apply Zfloor_lub; exact Ht).
  assert ((Z.of_nat n - 1 <= Zceil t)%Z).
  { apply le_IZR. eapply Rle_trans; [exact Ht|]. apply Zceil_ub. }
  unfold entryZ. rewrite !clampZ_high by assumption. lra.
Qed.

Lemma code_index dIn n k : (2 <= n)%nat -> codeAt dIn n k / fullScale dIn * INR (n - 1) = INR k.
Proof.
  intro H. unfold codeAt. pose proof (fullScale_pos dIn). assert (0 < INR (n - 1)) by (apply lt_0_INR; lia). field. split; lra.
Qed.
Lemma code_le dIn n x y : (2 <= n)%nat -> x <= y -> x / fullScale dIn * INR (n - 1) <= y / fullScale dIn * INR (n - 1).
Proof.
  intros H Hxy. pose proof (fullScale_pos dIn). assert (0 < INR (n - 1)) by (apply lt_0_INR; lia).
  apply Rmult_le_compat_r; [lra|]. apply Rmult_le_compat_r; [|assumption]. apply Rlt_le, Rinv_0_lt_compat. assumption.
Qed.

Theorem lut1d_entries c h dIn a n :
  isLUT1D h dIn a n -> indexMaps (h_elems h) = [] -> (2 <= n)%nat ->
  exists f, actsPerChannel c (Node h BLUT1D) f /\
    forall ch, (ch < 3)%nat ->
      (forall k, (k < n)%nat -> f ch (codeAt dIn n k) = entry1D a k ch) /\
      (forall x, x <= 0 -> f ch x = entry1D a 0 ch) /\
      (forall x, fullScale dIn <= x -> f ch x = entry1D a (n - 1) ch) /\
      (forall k x, (k + 1 < n)%nat -> codeAt dIn n k <= x <= codeAt dIn n (k + 1) ->
         f ch x = through (codeAt dIn n k) (entry1D a k ch) (codeAt dIn n (k + 1)) (entry1D a (k + 1) ch) x).
Proof.
  intros H Hm Hn. exists (lutFun a dIn n). split; [now apply lut1d_plain|]. intros ch Hc.
  pose proof (fullScale_pos dIn) as Hf. assert (Hp : 0 < INR (n - 1)) by (apply lt_0_INR; lia).
  unfold lutFun. repeat split.
  - intros k Hk. rewrite code_index by assumption. rewrite INR_IZR_INZ, lin_at. now apply entryZ_nat.
  - intros x Hx. apply lin_low; [lia|]. pose proof (code_le dIn n x 0 Hn Hx) as G. unfold Rdiv in *. lra.
  - intros x Hx. apply lin_high; [lia|]. pose proof (code_le dIn n _ x Hn Hx) as G.
    replace (fullScale dIn / fullScale dIn * INR (n - 1)) with (INR (n - 1)) in G by (field; lra). exact G.
  - intros k x Hk [H1 H2]. apply (code_le dIn n) in H1, H2; try assumption. rewrite code_index in H1, H2 by assumption.
    rewrite (lin_cell _ _ (Z.of_nat k)).
    + replace (Z.of_nat k + 1)%Z with (Z.of_nat (k + 1)) by lia. rewrite !entryZ_nat by lia.
      unfold through. rewrite <- !INR_IZR_INZ. unfold codeAt. rewrite plus_INR. cbn [INR].
      field. repeat split; try lra.
    + replace (Z.of_nat k + 1)%Z with (Z.of_nat (k + 1)) by lia. rewrite <- !INR_IZR_INZ. lra.
Qed.

Theorem lut1d_single c h dIn a :
  isLUT1D h dIn a 1 -> indexMaps (h_elems h) = [] ->
  actsPerChannel c (Node h BLUT1D) (fun ch _ => entry1D a 0 ch).
Proof.
  intros H Hm st values Hst. rewrite (lut1d_plain c h dIn a 1 H Hm st values Hst). f_equal.
  unfold perChannel, perColour, indexed. apply map_ext. intros [i x]. cbn [fst snd].
  destruct (Nat.ltb _ _); [|reflexivity].
  assert (E : forall ch x, lutFun a dIn 1 ch x = entry1D a 0 ch).
  { intros. unfold lutFun. apply lin_const. intro z. unfold entryZ. f_equal. unfold clampZ. lia. }
  rewrite !E. reflexivity.
Qed.

Theorem lut1d_between c h dIn a n :
  isLUT1D h dIn a n -> indexMaps (h_elems h) = [] -> (2 <= n)%nat ->
  exists f, actsPerChannel c (Node h BLUT1D) f /\
    forall ch, (ch < 3)%nat ->
      (forall k x, (k + 1 < n)%nat -> codeAt dIn n k <= x <= codeAt dIn n (k + 1) ->
         Rmin (entry1D a k ch) (entry1D a (k + 1) ch) <= f ch x <= Rmax (entry1D a k ch) (entry1D a (k + 1) ch)) /\
      (nondecreasing n (fun k => entry1D a k ch) -> forall x y, x <= y -> f ch x <= f ch y).
Proof.
  intros H Hm Hn. exists (lutFun a dIn n). split; [now apply lut1d_plain|]. intros ch Hc. unfold lutFun. split.
  - intros k x Hk [H1 H2]. apply (code_le dIn n) in H1, H2; try assumption. rewrite code_index in H1, H2 by assumption.
    rewrite <- (entryZ_nat a n ch k), <- (entryZ_nat a n ch (k + 1)) by lia.
    replace (Z.of_nat (k + 1)) with (Z.of_nat k + 1)%Z by lia. apply lin_bounds.
    replace (Z.of_nat k + 1)%Z with (Z.of_nat (k + 1)) by lia. rewrite <- !INR_IZR_INZ. lra.
  - intros Hd x y Hxy. apply lin_mono; [|now apply code_le].
    intro z. unfold entryZ. destruct (Z_lt_le_dec z 0) as [Hz|Hz]; [rewrite !clampZ_low by lia; lra|].
    destruct (Z_lt_le_dec (z + 1) (Z.of_nat n)) as [Hz2|Hz2].
    + replace (clampZ n z) with (Z.to_nat z) by (unfold clampZ; lia).
      replace (clampZ n (z + 1)) with (Z.to_nat z + 1)%nat by (unfold clampZ; lia). apply Hd. lia.
    + rewrite !clampZ_high by lia. lra.
Qed.
