(** CineSpace .csp files: what is written is what is read. *)
From Coq Require Import List Arith Lia ZArith String Ascii Bool.
From Verif Require Import PBase PFacts PRegistry PNumText PLutText PInverse2 PGrid PXmlArray PSpi PSpi3 SpecLut.
Import ListNotations.
Local Open Scope string_scope.
Local Open Scope list_scope.

(** ** Three-value cells of a flat list *)
Lemma nth_firstn {T} n (l : list T) i : nth_error (firstn n l) i = if Nat.ltb i n then nth_error l i else None.
Proof.
  revert l i. induction n as [|n IH]; intros [|x l] [|i]; try reflexivity.
  - cbn [firstn nth_error]. now destruct (Nat.ltb (S i) (S n)).
  - cbn [firstn nth_error]. rewrite IH. reflexivity.
Qed.
Lemma nth_skipn {T} a (l : list T) i : nth_error (skipn a l) i = nth_error l (a + i).
Proof. revert l. induction a as [|a IH]; intros [|x l]; try reflexivity; [now destruct i|]. apply IH. Qed.
Lemma slice_nth {T} (l : list T) a b i : nth_error (slice l a b) i = if Nat.ltb i (b - a) then nth_error l (a + i) else None.
Proof. unfold slice. now rewrite nth_firstn, nth_skipn. Qed.
Lemma setSlice_nth {T} (l vs : list T) a i : a + List.length vs <= List.length l ->
  nth_error (pySliceSet l a (a + List.length vs) vs) i =
  if Nat.leb a i && Nat.ltb i (a + List.length vs) then nth_error vs (i - a) else nth_error l i.
Proof.
  intro H. unfold pySliceSet. assert (La : List.length (firstn a l) = a) by (rewrite firstn_length; lia).
  destruct (Nat.leb_spec a i) as [H1|H1]; cbn [andb].
  - rewrite nth_error_app2 by lia. rewrite La. destruct (Nat.ltb_spec i (a + List.length vs)) as [H2|H2].
    + now rewrite nth_error_app1 by lia.
    + rewrite nth_error_app2 by lia. rewrite <- (firstn_skipn (a + List.length vs) l) at 2.
      rewrite nth_error_app2 by (rewrite firstn_length; lia). f_equal. rewrite firstn_length. lia.
  - rewrite nth_error_app1 by lia. rewrite <- (firstn_skipn a l) at 2. now rewrite nth_error_app1 by lia.
Qed.
Definition cellAt {T} (l : list T) (c : nat) : list T := slice l (c * 3) (c * 3 + 3).
Lemma setCell_same {T} (l vs : list T) c : List.length vs = 3 -> c * 3 + 3 <= List.length l ->
  cellAt (pySliceSet l (c * 3) (c * 3 + 3) vs) c = vs.
Proof.
  intros V H. unfold cellAt. rewrite <- V in *. apply nth_error_ext. intro i. rewrite slice_nth, setSlice_nth by exact H.
  replace (c * List.length vs + List.length vs - c * List.length vs) with (List.length vs) by lia.
  destruct (Nat.ltb_spec i (List.length vs)).
  - destruct (Nat.leb_spec (c * List.length vs) (c * List.length vs + i)); [|lia].
    destruct (Nat.ltb_spec (c * List.length vs + i) (c * List.length vs + List.length vs)); [|lia]. cbn [andb]. f_equal. lia.
  - symmetry. now apply nth_error_None.
Qed.
Lemma setCell_other {T} (l vs : list T) c d : List.length vs = 3 -> c * 3 + 3 <= List.length l -> c <> d ->
  cellAt (pySliceSet l (c * 3) (c * 3 + 3) vs) d = cellAt l d.
Proof.
  intros V H D. unfold cellAt. apply nth_error_ext. intro i. rewrite !slice_nth.
  pose proof (setSlice_nth l vs (c * 3) (d * 3 + i)) as E. rewrite V in E. rewrite E by exact H.
  destruct (Nat.ltb_spec i (d * 3 + 3 - d * 3)); [|reflexivity].
  destruct (Nat.leb_spec (c * 3) (d * 3 + i)); cbn [andb]; [|reflexivity].
  destruct (Nat.ltb_spec (d * 3 + i) (c * 3 + 3)); [lia|reflexivity].
Qed.
Lemma setCell_length {T} (l vs : list T) c : List.length vs = 3 -> c * 3 + 3 <= List.length l ->
  List.length (pySliceSet l (c * 3) (c * 3 + 3) vs) = List.length l.
Proof. intros V H. unfold pySliceSet. rewrite !app_length, firstn_length, skipn_length. lia. Qed.

Section Csp.
  Context {T : Type} {NM : Num T} {X : NumText T} {OK : TextOk T}.

  (** ** Placing the rows *)
  Definition rowReads (line : string) (vs : list T) : Prop := mapM parseFloat (MNumText.split line) = Ok vs.
  Definition stepRow (place : nat -> res nat) (line : string) (st : nat * list T) : res (nat * list T) :=
    let '(cspIndex, samples) := st in
    let* clfIndex := place cspIndex in
    let* vs := mapM parseFloat (MNumText.split line) in
    Ok (S cspIndex, if Nat.eqb (List.length vs) 3 then pySliceSet samples (clfIndex * 3) (clfIndex * 3 + 3) vs else samples).

  Lemma place_rows (place : nat -> res nat) (p : nat -> nat) total : forall ls rows i0 s,
    Forall2 (fun l vs => rowReads l vs /\ List.length vs = 3) ls rows -> List.length s = total * 3 ->
    (forall i, i0 <= i < i0 + List.length rows -> place i = Ok (p i) /\ p i < total) ->
    (forall i j, i0 <= i < i0 + List.length rows -> i0 <= j < i0 + List.length rows -> p i = p j -> i = j) ->
    exists s', for_each ls (stepRow place) (i0, s) = Ok (i0 + List.length rows, s') /\ List.length s' = total * 3 /\
      (forall j, j < List.length rows -> cellAt s' (p (i0 + j)) = nth j rows []) /\
      (forall c, (forall j, j < List.length rows -> p (i0 + j) <> c) -> cellAt s' c = cellAt s c).
  Proof.
    intros ls rows i0 s H. revert i0 s. induction H as [|l vs ls rows [Hr Lv] H IH]; intros i0 s Ls Hp Hinj.
    - exists s. cbn. rewrite Nat.add_0_r. repeat split; try assumption; try reflexivity. intros; lia.
    - cbn [for_each List.length] in *. destruct (Hp i0 ltac:(lia)) as [P0 B0]. unfold stepRow at 1. rewrite P0. cbn [bind].
      rewrite Hr. cbn [bind]. rewrite Lv. cbn [Nat.eqb bind].
      destruct (IH (S i0) (pySliceSet s (p i0 * 3) (p i0 * 3 + 3) vs)) as (s' & E & L' & C & O).
      + rewrite setCell_length by (assumption || lia). exact Ls.
      + intros i Hi. apply Hp. lia.
      + intros i j Hi Hj. apply Hinj; lia.
      + exists s'. split; [rewrite E; do 2 f_equal; lia|]. split; [exact L'|]. split.
        * intros [|j] Hj.
          -- cbn [nth]. rewrite Nat.add_0_r. rewrite O; [apply setCell_same; [exact Lv|lia]|].
             intros j Hj' Ej. apply Hinj in Ej; lia.
          -- cbn [nth]. replace (i0 + S j) with (S i0 + j) by lia. apply C. lia.
        * intros c Hc. rewrite O.
          -- apply setCell_other; [exact Lv|lia|]. specialize (Hc 0 ltac:(lia)). now rewrite Nat.add_0_r in Hc.
          -- intros j Hj. specialize (Hc (S j) ltac:(lia)). now replace (i0 + S j) with (S i0 + j) in Hc by lia.
  Qed.
  Lemma cspSamples_eq place ls s : cspSamples place ls s = (let* r := for_each ls (stepRow place) (0, s) in Ok (snd r)).
  Proof.
    unfold cspSamples. match goal with |- bind (for_each _ ?f _) _ = _ => rewrite (for_each_ext ls f (stepRow place)) end.
    - destruct (for_each ls (stepRow place) (0, s)) as [[? ?]|]; reflexivity.
    - intros l [i t]. reflexivity.
  Qed.
  (** Equal three-value cells. *)
  Lemma cells_eq total (s : list T) rows : List.length s = total * 3 -> List.length rows = total -> Forall (fun r => List.length r = 3) rows ->
    (forall c, c < total -> cellAt s c = nth c rows []) -> s = List.concat rows.
  Proof.
    intros L R F H. apply nth_error_ext. intro i. assert (Lc : List.length (List.concat rows) = total * 3) by (now rewrite (concat_rows_length 3), R).
    destruct (Nat.lt_ge_cases i (total * 3)) as [Hi|Hi].
    2:{ transitivity (@None T); [|symmetry]; apply nth_error_None; lia. }
    pose proof (Nat.div_mod i 3 ltac:(lia)) as Di. pose proof (Nat.mod_upper_bound i 3 ltac:(lia)) as Mi.
    assert (Hc : i / 3 < total) by (apply Nat.div_lt_upper_bound; lia).
    specialize (H (i / 3) Hc). apply (f_equal (fun l => nth_error l (i mod 3))) in H. unfold cellAt in H. rewrite slice_nth in H.
    destruct (Nat.ltb_spec (i mod 3) (i / 3 * 3 + 3 - i / 3 * 3)); [|lia]. replace (i / 3 * 3 + i mod 3) with i in H by lia. rewrite H.
    pose proof (concat_slice 3 rows (i / 3) F ltac:(lia)) as E. rewrite <- E.
    change (firstn 3 (skipn (i / 3 * 3) (List.concat rows))) with (firstn 3 (skipn (i / 3 * 3) (List.concat rows))).
    replace (firstn 3 (skipn (i / 3 * 3) (List.concat rows))) with (slice (List.concat rows) (i / 3 * 3) (i / 3 * 3 + 3)) by (unfold slice; f_equal; lia).
    rewrite slice_nth. destruct (Nat.ltb_spec (i mod 3) (i / 3 * 3 + 3 - i / 3 * 3)); [|lia]. f_equal. lia.
  Qed.
End Csp.
