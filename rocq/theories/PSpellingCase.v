(** Checks for concrete documents. *)
From Coq Require Import List String Ascii NArith Lia Bool.
From Verif Require Import SpecSpelling PNumText PXmlText PXmlTextDoc PSpelling.
Import ListNotations.
Local Open Scope string_scope.
Local Open Scope list_scope.

Fixpoint startsWith (s l : list ascii) : bool :=
  match s, l with [], _ => true | a :: s, b :: l => Ascii.eqb a b && startsWith s l | _, _ => false end.
Fixpoint holds (s l : list ascii) : bool := startsWith s l || match l with [] => false | _ :: t => holds s t end.
Lemma starts_app s b : startsWith s (s ++ b) = true.
Proof. induction s; [reflexivity|]. cbn. now rewrite Ascii.eqb_refl. Qed.
Lemma without_check s l : holds (chars s) l = false -> without s l.
Proof.
  intros H (a & b & ->). revert H. induction a as [|x a IH]; intro H; cbn [app] in H.
  - assert (K := starts_app (chars s) b). destruct (chars s ++ b); cbn [holds] in H; rewrite K in H; discriminate.
  - cbn [holds] in H. apply orb_false_iff in H as [_ H]. now apply IH.
Qed.
Definition plainb (a : ascii) : bool := goodText a.
Lemma plain_check l : forallb plainb l = true -> Forall plain l.
Proof.
  intro H. apply Forall_forall. intros a Ha. rewrite forallb_forall in H. specialize (H a Ha). unfold plainb, goodText in H. cbv zeta in H.
  rewrite !orb_true_iff, !andb_true_iff, !N.leb_le, !N.eqb_eq in H. unfold plain, printable, isTab, isLineFeed.
  destruct H as [[H|H]|H]; [now left| |]; right; [left|right]; rewrite <- (ascii_N_embedding a), H; reflexivity.
Qed.
Definition rawb (a : ascii) : bool := plainb a && negb (Ascii.eqb a "<") && negb (Ascii.eqb a "&") && negb (Ascii.eqb a "]").
Lemma text_raw s t r : forallb rawb (chars s) = true -> textSpelled t r -> textSpelled (s ++ t)%string (chars s ++ r).
Proof.
  intros H Ht. induction s as [|a s IH]; [exact Ht|]. cbn [chars list_ascii_of_string forallb] in H. apply andb_prop in H as [Ha Hs]. unfold rawb in Ha. rewrite !andb_true_iff, !negb_true_iff in Ha.
  destruct Ha as [[[A1 A2] A3] A4]. cbn [append chars list_ascii_of_string app]. constructor.
  - pose proof (plain_check [a]) as P. cbn [forallb] in P. rewrite A1 in P. specialize (P eq_refl). now inversion P.
  - now apply Ascii.eqb_neq.
  - now apply Ascii.eqb_neq.
  - apply Ascii.eqb_neq in A4. contradiction.
  - now apply IH.
Qed.
Definition valueb (q a : ascii) : bool := printableb a && negb (Ascii.eqb a q) && negb (Ascii.eqb a "<") && negb (Ascii.eqb a "&").
Lemma value_raw q v : forallb (valueb q) (chars v) = true -> Forall2 (valueChar q) (chars v) (map (fun a => [a]) (chars v)).
Proof.
  induction (chars v) as [|a l IH]; intro H; [constructor|]. cbn [forallb] in H. apply andb_prop in H as [Ha Hs]. cbn [map]. constructor; [|now apply IH].
  unfold valueb in Ha. rewrite !andb_true_iff, !negb_true_iff in Ha. destruct Ha as [[[A1 A2] A3] A4]. apply value_itself; try (now apply Ascii.eqb_neq).
  pose proof (line_check (String a "")) as P. cbn [chars list_ascii_of_string forallb] in P. rewrite A1 in P. specialize (P eq_refl). now inversion P.
Qed.
Lemma white_check l : forallb (fun a => Ascii.eqb a "009" || Ascii.eqb a "010" || Ascii.eqb a " ") l = true -> white l.
Proof.
  intro H. apply Forall_forall. intros a Ha. rewrite forallb_forall in H. specialize (H a Ha). cbv beta in H. rewrite !orb_true_iff, !Ascii.eqb_eq in H.
  destruct H as [[H|H]|H]; [now left|right; now left|right; now right].
Qed.
(** The parts of a concrete attribute. *)
Ltac attrParts := first [reflexivity | discriminate | now apply white_check | now apply value_raw | now left | now right].
