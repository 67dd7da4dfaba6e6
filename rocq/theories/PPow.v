(** Real powers. *)
From Coq Require Import Lra.
From Verif Require Export PRange.
Local Open Scope R_scope.

Lemma Rpow_pos x y : 0 < x -> Rpow x y = Rpower x y.
Proof. intro H. unfold Rpow. destruct (Rlt_dec 0 x); [reflexivity|contradiction]. Qed.
Lemma Rpow_0 y : 0 < y -> Rpow 0 y = 0.
Proof.
  intro H. unfold Rpow. destruct (Rlt_dec 0 0); [lra|]. destruct (Req_EM_T 0 0); [|lra].
  destruct (Req_EM_T y 0); [lra|reflexivity].
Qed.
Lemma Rpower_pos x y : 0 < Rpower x y.
Proof. apply exp_pos. Qed.
Lemma Rpow_nonneg x y : 0 <= x -> 0 <= Rpow x y.
Proof.
  intros [H|<-]; [rewrite Rpow_pos by assumption; apply Rlt_le, Rpower_pos|].
  unfold Rpow. destruct (Rlt_dec 0 0); [lra|]. destruct (Req_EM_T 0 0); [|lra]. destruct (Req_EM_T y 0); lra.
Qed.
Lemma Rpow_1 x : 0 <= x -> Rpow x 1 = x.
Proof. intros [H|<-]; [rewrite Rpow_pos by assumption; now apply Rpower_1|apply Rpow_0; lra]. Qed.
Lemma Rpow_inv x y : 0 <= x -> 0 < y -> Rpow (Rpow x y) (1 / y) = x.
Proof.
  intros [H|<-] Hy.
  - rewrite (Rpow_pos x) by assumption. rewrite Rpow_pos by apply Rpower_pos. rewrite Rpower_mult.
    replace (y * (1 / y)) with 1 by (field; lra). now apply Rpower_1.
  - rewrite (Rpow_0 y Hy). apply Rpow_0. unfold Rdiv. rewrite Rmult_1_l. now apply Rinv_0_lt_compat.
Qed.
Lemma Rpow_le x y p : 0 <= x <= y -> 0 < p -> Rpow x p <= Rpow y p.
Proof.
  intros [[H|<-] Hy] Hp; [|rewrite Rpow_0 by assumption; now apply Rpow_nonneg].
  rewrite !Rpow_pos by lra. unfold Rpower. destruct Hy as [Hy|<-]; [|lra].
  apply Rlt_le, exp_increasing. apply Rmult_lt_compat_l; [assumption|]. now apply ln_increasing.
Qed.

Lemma pypow_nonneg x y : 0 <= x -> 0 < y -> pypow x y = Ok (Rpow x y).
Proof.
  intros Hx Hy. unfold pypow. realize.
  assert (E : Rltb y 0 = false) by (apply Rltb_false; lra). rewrite E, Bool.andb_false_r.
  assert (E2 : Rltb x 0 = false) by (apply Rltb_false; lra). rewrite E2. reflexivity.
Qed.
Lemma pypow_pos x y : 0 < x -> pypow x y = Ok (Rpower x y).
Proof.
  intros Hx. unfold pypow. realize.
  assert (E : Reqb x 0 = false) by (apply Reqb_false; lra). rewrite E.
  assert (E2 : Rltb x 0 = false) by (apply Rltb_false; lra). rewrite E2. cbn [andb]. now rewrite Rpow_pos.
Qed.
Lemma pyfdiv_ok (x y : R) : y <> 0 -> pyfdiv x y = Ok (x / y).
Proof. intro H. unfold pyfdiv. realize. apply Reqb_false in H. now rewrite H. Qed.

(* ------------------------------------------------------------------ *)
(** * Bernoulli's inequality for real exponents *)

Lemma ln_le_minus1 z : 0 < z -> ln z <= z - 1.
Proof.
  intro H. destruct (Req_dec z 1) as [->|Hn]; [rewrite ln_1; lra|].
  apply Rlt_le. pose proof (exp_ineq1 (ln z)) as E.
  assert (ln z <> 0) by (intro E0; apply Hn; apply ln_inv; [assumption|lra|now rewrite ln_1]).
  specialize (E H0). rewrite exp_ln in E by assumption. lra.
Qed.
Lemma ln_lt_minus1 z : 0 < z -> z <> 1 -> ln z < z - 1.
Proof.
  intros H Hn. pose proof (exp_ineq1 (ln z)) as E.
  assert (ln z <> 0) by (intro E0; apply Hn; apply ln_inv; [assumption|lra|now rewrite ln_1]).
  specialize (E H0). rewrite exp_ln in E by assumption. lra.
Qed.

(** The weighted mean of 1 and t dominates the geometric one. *)
Lemma weighted_mean g t : 1 < g -> 0 < t -> (g - 1) / g * ln t <= ln ((1 + (g - 1) * t) / g).
Proof.
  intros Hg Ht. set (m := (1 + (g - 1) * t) / g).
  assert (Hg' : 0 < / g) by (apply Rinv_0_lt_compat; lra).
  assert (Hm : 0 < m) by (unfold m, Rdiv; apply Rmult_lt_0_compat; nra).
  assert (Hm' : 0 < / m) by now apply Rinv_0_lt_compat.
  assert (A : ln (/ m) <= / m - 1) by now apply ln_le_minus1.
  assert (B : ln (t * / m) <= t * / m - 1) by (apply ln_le_minus1; now apply Rmult_lt_0_compat).
  rewrite ln_mult in B by assumption. rewrite ln_Rinv in A, B by assumption.
  assert (W : 0 < (g - 1) / g) by (unfold Rdiv; apply Rmult_lt_0_compat; lra).
  assert (E : / g * (/ m - 1) + (g - 1) / g * (t * / m - 1) = 0).
  { unfold m. assert (0 < (g - 1) * t) by (apply Rmult_lt_0_compat; lra). field. split; lra. }
  assert (A' : / g * (- ln m) <= / g * (/ m - 1)) by (apply Rmult_le_compat_l; lra).
  assert (B' : (g - 1) / g * (ln t + - ln m) <= (g - 1) / g * (t * / m - 1)) by (apply Rmult_le_compat_l; lra).
  assert (S : / g + (g - 1) / g = 1) by (field; lra).
  replace (ln m) with ((/ g + (g - 1) / g) * ln m) by (rewrite S; ring). lra.
Qed.
Lemma weighted_mean_strict g t : 1 < g -> 0 < t -> t <> 1 -> (g - 1) / g * ln t < ln ((1 + (g - 1) * t) / g).
Proof.
  intros Hg Ht Hn. set (m := (1 + (g - 1) * t) / g).
  assert (Hg' : 0 < / g) by (apply Rinv_0_lt_compat; lra).
  assert (Hm : 0 < m) by (unfold m, Rdiv; apply Rmult_lt_0_compat; nra).
  assert (Hm' : 0 < / m) by now apply Rinv_0_lt_compat.
  assert (Hm1 : / m <> 1).
  { intro E. assert (E1 : m = 1) by (rewrite <- (Rinv_inv m), E; field). unfold m in E1.
    apply (f_equal (fun z => z * g)) in E1. replace ((1 + (g - 1) * t) / g * g) with (1 + (g - 1) * t) in E1 by (field; lra). nra. }
  assert (A : ln (/ m) < / m - 1) by now apply ln_lt_minus1.
  assert (B : ln (t * / m) <= t * / m - 1) by (apply ln_le_minus1; now apply Rmult_lt_0_compat).
  rewrite ln_mult in B by assumption. rewrite ln_Rinv in A, B by assumption.
  assert (W : 0 < (g - 1) / g) by (unfold Rdiv; apply Rmult_lt_0_compat; lra).
  assert (E : / g * (/ m - 1) + (g - 1) / g * (t * / m - 1) = 0).
  { unfold m. assert (0 < (g - 1) * t) by (apply Rmult_lt_0_compat; lra). field. split; lra. }
  assert (A' : / g * (- ln m) < / g * (/ m - 1)) by (apply Rmult_lt_compat_l; lra).
  assert (B' : (g - 1) / g * (ln t + - ln m) <= (g - 1) / g * (t * / m - 1)) by (apply Rmult_le_compat_l; lra).
  assert (S : / g + (g - 1) / g = 1) by (field; lra).
  replace (ln m) with ((/ g + (g - 1) / g) * ln m) by (rewrite S; ring). lra.
Qed.

(** r^g > 1 + g (r - 1) for r > 1, g > 1. *)
Lemma bernoulli g r : 1 < g -> 1 < r -> 1 + g * (r - 1) < Rpower r g.
Proof.
  intros Hg Hr. set (z := Rpower r g). assert (Hz : 0 < z) by apply Rpower_pos.
  assert (Hz1 : 1 < z).
  { unfold z, Rpower. rewrite <- exp_0. apply exp_increasing. apply Rmult_lt_0_compat; [lra|].
    rewrite <- ln_1. apply ln_increasing; lra. }
  (* mean of 1 (weight 1/g) and 1/z: apply the strict inequality to t = 1/z *)
  assert (Hiz : 0 < / z) by now apply Rinv_0_lt_compat.
  assert (Hne : / z <> 1) by (intro E; assert (z = 1) by (rewrite <- (Rinv_inv z), E; field); lra).
  pose proof (weighted_mean_strict g (/ z) Hg Hiz Hne) as W.
  rewrite ln_Rinv in W by assumption.
  assert (Lz : ln z = g * ln r) by (unfold z, Rpower; now rewrite ln_exp). rewrite Lz in W.
  replace ((g - 1) / g * - (g * ln r)) with (ln r - ln z) in W by (rewrite Lz; field; lra).
  assert (Hm : 0 < (1 + (g - 1) * / z) / g).
  { unfold Rdiv. apply Rmult_lt_0_compat; [|apply Rinv_0_lt_compat; lra].
    pose proof (Rmult_lt_0_compat (g - 1) (/ z) ltac:(lra) Hiz). lra. }
  assert (E : ln r - ln z = ln (r * / z)) by (rewrite ln_mult by lra; rewrite ln_Rinv by assumption; lra).
  rewrite E in W. apply ln_lt_inv in W; [|apply Rmult_lt_0_compat; lra|assumption].
  apply (Rmult_lt_compat_r (g * z)) in W; [|apply Rmult_lt_0_compat; lra].
  replace (r * / z * (g * z)) with (g * r) in W by (field; lra).
  replace ((1 + (g - 1) * / z) / g * (g * z)) with (z + (g - 1)) in W by (field; split; lra). lra.
Qed.
