(** Proofs about the samples taken by sample1D and sample3D. *)
From Coq Require Import Lra.
From Verif Require Export PLattice.

Lemma mapM_iff {B} (f : nat -> res B) n ys d :
  mapM f (seq 0 n) = Ok ys <-> List.length ys = n /\ forall i, i < n -> f i = Ok (nth i ys d).
Proof.
  split.
  - intro H. pose proof (mapM_length _ _ _ H) as L. rewrite seq_length in L. split; [exact L|].
    intros i Hi. now apply (mapM_seq_nth f n).
  - revert ys. induction n as [|n IH]; intros ys [L H].
    + destruct ys; [reflexivity|discriminate].
    + destruct (exists_last (l := ys)) as [zs [z ->]]; [now destruct ys|]. rewrite app_length in L. cbn in L.
      rewrite seq_S, mapM_snoc. cbn [Nat.add]. rewrite (IH zs).
      * cbn [bind]. rewrite (H n) by lia. rewrite app_nth2 by lia. replace (n - List.length zs) with 0 by lia. reflexivity.
      * split; [lia|]. intros i Hi. rewrite (H i) by lia. now rewrite app_nth1 by lia.
Qed.

Lemma concat_slice {T} ch (rows : list (list T)) i : Forall (fun r => List.length r = ch) rows -> i < List.length rows ->
  firstn ch (skipn (i * ch) (List.concat rows)) = nth i rows [].
Proof.
  intros HF. revert i. induction HF as [|r rows Hr HF IH]; intros i Hi; [cbn in Hi; lia|].
  destruct i as [|i]; cbn [List.concat nth].
  - cbn [Nat.mul skipn]. rewrite firstn_app, Hr, Nat.sub_diag, firstn_O, app_nil_r. apply firstn_all2. lia.
  - rewrite <- IH by (cbn in Hi; lia). replace (S i * ch) with (List.length r + i * ch) by lia.
    rewrite skipn_app, skipn_all2 by lia. cbn [app]. now replace (List.length r + i * ch - List.length r) with (i * ch) by lia.
Qed.

Lemma slices_concat {T} ch (s : list T) n : List.length s = n * ch ->
  List.concat (map (fun i => firstn ch (skipn (i * ch) s)) (seq 0 n)) = s.
Proof.
  revert s. induction n as [|n IH]; intros s L; [destruct s; [reflexivity|discriminate]|].
  cbn [seq map List.concat Nat.mul skipn]. rewrite <- seq_shift, map_map.
  transitivity (firstn ch s ++ List.concat (map (fun i => firstn ch (skipn (i * ch) (skipn ch s))) (seq 0 n))).
  - f_equal. f_equal. apply map_ext. intro i. rewrite skipn_skipn. f_equal; f_equal; lia.
  - rewrite IH by (rewrite skipn_length; lia). apply firstn_skipn.
Qed.

Lemma fillSamples_iff {T} {N : Num T} n (sample : nat -> res (list T)) s :
  (forall i v, sample i = Ok v -> List.length v = 3) ->
  fillSamples n sample = Ok s <-> List.length s = n * 3 /\ forall i, i < n -> sample i = Ok (firstn 3 (skipn (i * 3) s)).
Proof.
  intro H3. unfold fillSamples. rewrite fill_rows by assumption. split.
  - intro H. apply bind_ok in H. destruct H as [rows [Hr H]]. apply Ok_inj in H. subst s.
    pose proof (mapM_rows _ 3 _ _ H3 Hr) as HF. pose proof (mapM_length _ _ _ Hr) as L. rewrite seq_length in L.
    split; [rewrite (concat_rows_length 3) by assumption; lia|]. intros i Hi. rewrite concat_slice by (assumption || lia).
    now apply (mapM_seq_nth sample n).
  - intros [L H].
    assert (E : mapM sample (seq 0 n) = Ok (map (fun i => firstn 3 (skipn (i * 3) s)) (seq 0 n))).
    { apply (mapM_iff sample n _ (firstn 3 (skipn (0 * 3) s))). rewrite map_length, seq_length. split; [reflexivity|].
      intros i Hi. rewrite (map_nth (fun i => firstn 3 (skipn (i * 3) s)) (seq 0 n) 0). rewrite seq_nth by assumption. cbn [Nat.add]. auto. }
    rewrite E. cbn [bind]. now rewrite slices_concat.
Qed.

Lemma samplePoint_R i n (lo hi : R) : 2 <= n -> samplePoint i n lo hi = Ok (gridPoint n lo hi i).
Proof.
  intro H. unfold samplePoint. rewrite samplePos_R by assumption. cbn [bind]. f_equal. unfold gridPoint. realize. ring.
Qed.

Theorem sample1D_points c l n (lo hi : R) s : 2 <= n ->
  sample1D c l n lo hi = Ok s <->
  List.length s = n * 3 /\ forall i, i < n -> colourThrough c l (repeat (gridPoint n lo hi i) 3) = Ok (firstn 3 (skipn (i * 3) s)).
Proof.
  intro H. unfold sample1D. rewrite fillSamples_iff.
  - unfold colourThrough. cbn [repeat]. split; intros [L E]; (split; [exact L|]); intros i Hi; specialize (E i Hi);
      rewrite samplePoint_R in * by assumption; exact E.
  - intros i v E. rewrite samplePoint_R in E by assumption. cbn [bind] in E. apply runList_length in E. exact E.
Qed.

Theorem grid_ends n (lo hi : R) : 2 <= n -> gridPoint n lo hi 0 = lo /\ gridPoint n lo hi (n - 1) = hi /\
  (forall i, i + 1 < n -> (gridPoint n lo hi (i + 1) - gridPoint n lo hi i = (hi - lo) / INR (n - 1))%R).
Proof.
  intro H. assert (0 < INR (n - 1))%R by (apply lt_0_INR; lia). unfold gridPoint.
  split; [cbn; field; lra|]. split; [field; lra|]. intros i Hi. rewrite plus_INR. cbn [INR]. field. lra.
Qed.

Lemma nested_iff {T} a b d (f : nat -> nat -> nat -> res (list T)) s :
  mapM (fun r => mapM (fun g => mapM (f r g) (seq 0 d)) (seq 0 b)) (seq 0 a) = Ok s <->
  hasShape a b d s /\ forall r g k, r < a -> g < b -> k < d -> f r g k = Ok (cellOf s r g k).
Proof.
  rewrite (mapM_iff _ a s []). unfold hasShape, cellOf. split.
  - intros [L H].
    assert (G : forall r, r < a -> List.length (nth r s []) = b /\ forall g, g < b ->
       List.length (nth g (nth r s []) []) = d /\ forall k, k < d -> f r g k = Ok (nth k (nth g (nth r s []) []) [])).
    { intros r Hr. specialize (H r Hr). apply (mapM_iff _ b _ []) in H. destruct H as [L1 H]. split; [exact L1|].
      intros g Hg. specialize (H g Hg). apply (mapM_iff _ d _ []) in H. exact H. }
    split; [split; [exact L|]|].
    + intros r Hr. destruct (G r Hr) as [L1 G1]. split; [exact L1|]. intros g Hg. apply (G1 g Hg).
    + intros r g k Hr Hg Hk. now apply (G r Hr).
  - intros [[L Hs] H]. split; [exact L|]. intros r Hr. destruct (Hs r Hr) as [L1 Hs1].
    apply (mapM_iff _ b _ []). split; [exact L1|]. intros g Hg. apply (mapM_iff _ d _ []). split; [apply Hs1; exact Hg|].
    intros k Hk. now apply H.
Qed.

Theorem sample3D_points c l n m (lo hi : R) s : 2 <= n -> 2 <= m ->
  sample3D c l n m n lo hi = Ok s <->
  hasShape n m n s /\
  forall r g b, r < n -> g < m -> b < n ->
    colourThrough c l [gridPoint n lo hi r; gridPoint m lo hi g; gridPoint n lo hi b] = Ok (cellOf s r g b).
Proof.
  intros Hn Hm. unfold sample3D.
  match goal with |- context [fillLattice n m n ?f] => set (F := f) end. rewrite (lattice_loop F), (nested_iff n m n F).
  assert (E : forall r g b, (let* vr := samplePoint r n lo hi in let* vg := samplePoint g m lo hi in
      let* vb := samplePoint b n lo hi in runList c l [vr; vg; vb]) =
      colourThrough c l [gridPoint n lo hi r; gridPoint m lo hi g; gridPoint n lo hi b]).
  { intros. rewrite !samplePoint_R by assumption. reflexivity. }
  split; intros [S H]; (split; [exact S|]); intros r g b Hr Hg Hb; specialize (H r g b Hr Hg Hb); unfold F in *; [rewrite <- E|rewrite E]; exact H.
Qed.

Theorem sample3D_uneven (T : Type) (N : Num T) c l r0 r1 r2 (lo hi : T) :
  r0 <> r2 -> 1 <= r0 -> 1 <= r1 -> 1 <= r2 ->
  exists e, sample3D c l r0 r1 r2 lo hi = Err e /\
    ((forall r g b, r < r0 -> g < r1 -> b < r2 -> exists vr vg vb px,
        samplePoint r r0 lo hi = Ok vr /\ samplePoint g r1 lo hi = Ok vg /\ samplePoint b r2 lo hi = Ok vb /\
        colourThrough c l [vr; vg; vb] = Ok px) -> e = IndexError).
Proof.
  intros Hne H0 H1 H2. destruct (lattice_noncubic (fun r g b =>
      let* vr := samplePoint r r0 lo hi in
      let* vg := samplePoint g r1 lo hi in
      let* vb := samplePoint b r2 lo hi in
      runList c l [vr; vg; vb]) r0 r1 r2 Hne H0 H1 H2) as [e [E W]].
  exists e. split; [exact E|]. intro Hok. apply W. intros r g b Hr Hg Hb.
  destruct (Hok r g b Hr Hg Hb) as [vr [vg [vb [px [E1 [E2 [E3 E4]]]]]]]. exists px. rewrite E1, E2, E3. exact E4.
Qed.

Lemma samplePoint_one (T : Type) (N : Num T) (lo hi : T) i : neqb (nofZ 0) n0 = true -> samplePoint i 1 lo hi = Err ZeroDivisionError.
Proof. intro H. unfold samplePoint, samplePos, pyfdiv. change (Z.of_nat 1 - 1)%Z with 0%Z. now rewrite H. Qed.

Theorem sample_one (T : Type) (N : Num T) c l (lo hi : T) r1 r2 : neqb (nofZ 0) n0 = true -> 1 <= r1 -> 1 <= r2 ->
  sample1D c l 1 lo hi = Err ZeroDivisionError /\ sample3D c l 1 r1 r2 lo hi = Err ZeroDivisionError.
Proof.
  intros H H1 H2. split.
  - unfold sample1D, fillSamples. cbn [seq for_each]. rewrite samplePoint_one by assumption. reflexivity.
  - unfold sample3D, fillLattice. destruct r1 as [|r1]; [lia|]. destruct r2 as [|r2]; [lia|]. cbn [seq for_each].
    rewrite samplePoint_one by assumption. reflexivity.
Qed.
