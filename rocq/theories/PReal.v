(** Exact arithmetic: basic facts and the laws it satisfies. *)
From Coq Require Import Lra.
From Flocq Require Import Core.
From Verif Require Export NumR PFacts.
Local Open Scope R_scope.

Lemma Rltb_spec x y : Rltb x y = true <-> x < y.
Proof. unfold Rltb. destruct (Rlt_dec x y); split; intros; (assumption || reflexivity || discriminate || contradiction). Qed.
Lemma Rltb_false x y : Rltb x y = false <-> y <= x.
Proof. unfold Rltb. destruct (Rlt_dec x y); split; intros; try lra; (reflexivity || discriminate). Qed.
Lemma Rleb_spec x y : Rleb x y = true <-> x <= y.
Proof. unfold Rleb. destruct (Rle_dec x y); split; intros; (assumption || reflexivity || discriminate || contradiction). Qed.
Lemma Rleb_false x y : Rleb x y = false <-> y < x.
Proof. unfold Rleb. destruct (Rle_dec x y); split; intros; try lra; (reflexivity || discriminate). Qed.
Lemma Reqb_spec x y : Reqb x y = true <-> x = y.
Proof. unfold Reqb. destruct (Req_EM_T x y); split; intros; (assumption || reflexivity || discriminate || contradiction). Qed.
Lemma Reqb_false x y : Reqb x y = false <-> x <> y.
Proof. unfold Reqb. destruct (Req_EM_T x y); split; intros; try contradiction; (assumption || reflexivity || discriminate). Qed.

#[export] Instance real_f32 : F32Laws R.
Proof. split; reflexivity. Qed.
#[export] Instance real_ord : OrdLaws R.
Proof. split. intros x y _ _ H. cbn in *. apply Rleb_false in H. apply Rleb_spec. lra. Qed.

(** Unfold the model's arithmetic to the real numbers. *)
Ltac realize :=
  unfold n0, n1, nlit in *;
  cbn [nofZ nadd nsub nmul ndiv nltb nleb neqb nisnan nisinf nfloor nceil npow nlog10 nf32 nf16 nf16inf nhbits nhalf realNum] in *.

Lemma pymax_R (a b : R) : pymax a b = Rmax a b.
Proof.
  unfold pymax. realize. destruct (Rltb a b) eqn:E.
  - apply Rltb_spec in E. now rewrite Rmax_right by lra.
  - apply Rltb_false in E. now rewrite Rmax_left by lra.
Qed.
Lemma pymin_R (a b : R) : pymin a b = Rmin a b.
Proof.
  unfold pymin. realize. destruct (Rltb b a) eqn:E.
  - apply Rltb_spec in E. now rewrite Rmin_right by lra.
  - apply Rltb_false in E. now rewrite Rmin_left by lra.
Qed.
