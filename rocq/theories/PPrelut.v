(** Proofs about the expansion of .csp preluts. *)
From Coq Require Import List Arith Lia ZArith String Ascii Bool Reals Lra.
From Verif Require Import PBase PFacts PReal PInverse2 PGrid PSpi PCsp2 SpecPrelut.
Import ListNotations.
Local Open Scope R_scope.
Local Open Scope list_scope.

Lemma pyget_last {A} (l : list A) d : l <> [] -> pyget l (-1) = Ok (nth (List.length l - 1) l d).
Proof.
  intro H. unfold pyget. assert (0 < List.length l)%nat by (destruct l; [contradiction|cbn; lia]).
  replace (-1 <? 0)%Z with true by reflexivity. rewrite (proj2 (Z.ltb_ge _ _)) by lia.
  replace (Z.to_nat (-1 + Z.of_nat (List.length l))) with (List.length l - 1)%nat by lia.
  destruct (nth_error l (List.length l - 1)) eqn:E; [now rewrite (nth_error_nth _ _ _ E)|]. apply nth_error_None in E. lia.
Qed.

Lemma rising_lt l i j : risingInputs l -> (i < j < List.length l)%nat -> nth i l 0 < nth j l 0.
Proof.
  intros H [Hij Hj]. induction j as [|j IH]; [lia|]. pose proof (H j ltac:(lia)) as Hs. replace (j + 1)%nat with (S j) in Hs by lia.
  destruct (Nat.eq_dec i j) as [->|]; [exact Hs|]. pose proof (IH ltac:(lia) ltac:(lia)). lra.
Qed.

Lemma pyfdiv_R a b : b <> 0 -> pyfdiv a b = Ok (a / b).
Proof. intros Hb. unfold pyfdiv. realize. destruct (Reqb b 0) eqn:Eb; [apply Reqb_spec in Eb; contradiction|reflexivity]. Qed.

Lemma prelutAt_R n lo hi p v : (2 <= n)%nat -> isShaper n lo hi p -> lo <= v <= hi ->
  exists y, prelutAt (fst p) (snd p) n v = Ok y /\ onPolyline (fst p) (snd p) v y.
Proof.
  destruct p as [xs ys]. cbn [fst snd]. intros Hn (Lx & Ly & Hr & H0 & H9) Hv. cbn [fst snd] in *. unfold prelutAt, searchLut.
  destruct (searchTable_R xs 1 0 v (fun i => nth i xs 0) n 0 0) as [j [Ej Hj]].
  { intros i Hi. rewrite Nat.mul_1_r, Nat.add_0_r. now rewrite getn_nth by lia. }
  destruct n as [|n'] eqn:En; [lia|]. rewrite <- En in *. rewrite Ej. cbn [bind].
  assert (Hjn : (0 < j < n)%nat).
  { destruct Hj as [[? [Q _]]|[? _]]; [|subst; lia]. split; [|lia]. destruct j; [|lia]. lra. }
  replace (Nat.min (n - 1) j) with j by lia. rewrite !getn_nth by lia. cbn [bind].
  pose proof (rising_lt xs (j - 1) j Hr ltac:(lia)) as Hs.
  rewrite pyfdiv_R by (realize; lra). cbn [bind]. eexists. split; [reflexivity|].
  exists (j - 1)%nat. replace (j - 1 + 1)%nat with j by lia. split; [lia|]. split.
  - destruct Hj as [[_ [Q1 Q2]]|[Q1 Q2]].
    + split; [apply Q2; lia|lra].
    + split; [apply Q2; lia|]. replace j with (n - 1)%nat by lia. lra.
  - unfold through. realize. field. lra.
Qed.

(** Below the first input of a prelut the two neighbours are the same point. *)
Lemma prelutAt_below xs ys n v : (0 < n)%nat -> List.length xs = n -> v < nth 0 xs 0 -> prelutAt xs ys n v = Err ZeroDivisionError.
Proof.
  intros Hn Lx Hv. unfold prelutAt, searchLut. destruct n as [|n']; [lia|]. cbn [seq searchTable]. rewrite getn_nth by (cbn; lia).
  cbn [bind Nat.mul Nat.add]. realize. rewrite (proj2 (Rltb_spec _ _) Hv). cbn [bind Nat.sub]. rewrite Nat.min_0_r, getn_nth by lia. cbn [bind].
  unfold pyfdiv. realize. rewrite (proj2 (Reqb_spec _ _)) by lra. reflexivity.
Qed.


Lemma ends_of n lo hi p : (0 < n)%nat -> isShaper n lo hi p -> getn (fst p) 0 = Ok lo /\ pyget (fst p) (-1) = Ok hi.
Proof.
  intros Hn (Lx & _ & _ & H0 & H9). rewrite getn_nth, (pyget_last _ 0) by (try lia; intro E; rewrite E in Lx; cbn in Lx; lia).
  rewrite Lx, H0, H9. now split.
Qed.

Lemma grid_inside n lo hi i : (2 <= n)%nat -> (i < n)%nat -> lo <= hi -> lo <= gridPoint n lo hi i <= hi.
Proof.
  intros Hn Hi H. unfold gridPoint. assert (0 < INR (n - 1)) by (apply lt_0_INR; lia).
  assert (0 <= INR i / INR (n - 1) <= 1).
  { split; [apply Rmult_le_pos; [apply pos_INR|left; now apply Rinv_0_lt_compat]|]. apply Rmult_le_reg_r with (INR (n - 1)); [assumption|].
    unfold Rdiv. rewrite Rmult_assoc, Rinv_l by lra. rewrite Rmult_1_r, Rmult_1_l. apply le_INR. lia. }
  set (t := INR i / INR (n - 1)) in *. clearbody t. nra.
Qed.

Lemma nth_skipn_add {A} a (l : list A) k d : nth k (skipn a l) d = nth (a + k) l d.
Proof. revert l. induction a as [|a IH]; intro l; [reflexivity|]. destruct l; [now destruct k|]. apply IH. Qed.
Lemma nth_firstn_add {A} n (l : list A) k d : (k < n)%nat -> nth k (firstn n l) d = nth k l d.
Proof. revert l k. induction n as [|n IH]; intros l k H; [lia|]. destruct l; [reflexivity|]. destruct k; [reflexivity|]. cbn [firstn nth]. apply IH. lia. Qed.

Theorem prelut_expanded n lo hi (r g b : list R * list R) :
  (3 <= n)%nat -> isShaper n lo hi r -> isShaper n lo hi g -> isShaper n lo hi b ->
  exists vals, generateCLFPrelut r g b =
      Ok [rangeNode "prelut_range" lo hi; lut1dNode "prelut_lut1d" "linear" (2 * n) 3 vals] /\
    List.length vals = (2 * n * 3)%nat /\
    forall i, (i < 2 * n)%nat ->
      onPolyline (fst r) (snd r) (gridPoint (2 * n) lo hi i) (nth (i * 3) vals 0) /\
      onPolyline (fst g) (snd g) (gridPoint (2 * n) lo hi i) (nth (i * 3 + 1) vals 0) /\
      onPolyline (fst b) (snd b) (gridPoint (2 * n) lo hi i) (nth (i * 3 + 2) vals 0).
Proof.
  intros Hn Hr Hg Hb.
  assert (Hlo : lo < hi).
  { destruct Hr as (Lx & _ & R & <- & <-). apply rising_lt; [exact R|lia]. }
  unfold generateCLFPrelut.
  destruct (ends_of n lo hi r ltac:(lia) Hr) as [-> ->], (ends_of n lo hi g ltac:(lia) Hg) as [-> ->], (ends_of n lo hi b ltac:(lia) Hb) as [-> ->].
  assert (L : forall p, isShaper n lo hi p -> List.length (fst p) = n) by (intros p Q; apply Q).
  rewrite (L r Hr), (L g Hg), (L b Hb), !Nat.max_id, (proj2 (Nat.ltb_lt 2 n)) by lia. cbn [bind].
  rewrite !pymin_same, !pymax_same. replace (n * 2)%nat with (2 * n)%nat by lia.
  pose proof (fun i (Hi : (i < 2 * n)%nat) => grid_inside (2 * n) lo hi i ltac:(lia) Hi ltac:(lra)) as In.
  assert (P : forall i, (i < 2 * n)%nat -> exists vr vg vb,
      mapM (fun p => prelutAt (fst p) (snd p) n (gridPoint (2 * n) lo hi i)) [r; g; b] = Ok [vr; vg; vb] /\
      onPolyline (fst r) (snd r) (gridPoint (2 * n) lo hi i) vr /\ onPolyline (fst g) (snd g) (gridPoint (2 * n) lo hi i) vg /\
      onPolyline (fst b) (snd b) (gridPoint (2 * n) lo hi i) vb).
  { intros i Hi. destruct (prelutAt_R n lo hi r _ ltac:(lia) Hr (In i Hi)) as (vr & Er & Or), (prelutAt_R n lo hi g _ ltac:(lia) Hg (In i Hi)) as (vg & Eg & Og),
      (prelutAt_R n lo hi b _ ltac:(lia) Hb (In i Hi)) as (vb & Eb & Ob). exists vr, vg, vb. cbn [mapM]. rewrite Er, Eg, Eb. now split. }
  set (sample := fun i => let* v := samplePoint i (2 * n) lo hi in mapM (fun p => prelutAt (fst p) (snd p) n v) [r; g; b]).
  assert (H3 : forall i v, sample i = Ok v -> List.length v = 3%nat).
  { intros i v. unfold sample. rewrite samplePoint_R by lia. cbn [bind]. intro E. apply mapM_length in E. exact E. }
  destruct (mapM sample (seq 0 (2 * n))) as [rows|e] eqn:Er.
  2:{ exfalso. assert (K : exists ys, mapM sample (seq 0 (2 * n)) = Ok ys); [|destruct K as [ys K]; congruence].
      apply mapM_all_ok. intros i Hi. apply in_seq in Hi. unfold sample. rewrite samplePoint_R by lia. cbn [bind].
      destruct (P i ltac:(lia)) as (vr & vg & vb & -> & _). eexists. reflexivity. }
  assert (F : fillSamples (2 * n) sample = Ok (List.concat rows)).
  { unfold fillSamples. rewrite fill_rows by assumption. rewrite Er. reflexivity. }
  apply (fillSamples_iff _ _ _ H3) in F as F'. destruct F' as [Lv Hv]. exists (List.concat rows). set (vals := List.concat rows) in *. clearbody vals.
  fold sample. rewrite F. cbn [bind]. rewrite (lut1d_node _ _ (2 * n) 3 vals) by (lia || exact Lv). cbn [bind]. rewrite limit_range.
  split; [reflexivity|]. split; [exact Lv|]. intros i Hi. specialize (Hv i Hi). unfold sample in Hv. rewrite samplePoint_R in Hv by lia. cbn [bind] in Hv.
  destruct (P i Hi) as (vr & vg & vb & E & O1 & O2 & O3). rewrite E in Hv. apply Ok_inj in Hv.
  assert (Q : forall k, (k < 3)%nat -> nth (i * 3 + k) vals 0 = nth k [vr; vg; vb] 0).
  { intros k Hk. rewrite Hv, <- nth_skipn_add. symmetry. apply nth_firstn_add. exact Hk. }
  rewrite <- (Nat.add_0_r (i * 3)) at 1. rewrite !Q by lia. cbn [nth]. auto.
Qed.

(** If one channel starts later than another, expanding the prelut divides by zero. *)
Theorem prelut_starts (r g b : list R * list R) n lor log lob hir hig hib :
  (3 <= n)%nat -> isShaper n lor hir r -> isShaper n log hig g -> isShaper n lob hib b ->
  ~ (lor = log /\ log = lob) ->
  generateCLFPrelut r g b = Err ZeroDivisionError.
Proof.
  intros Hn Hr Hg Hb D. unfold generateCLFPrelut.
  destruct (ends_of n _ _ r ltac:(lia) Hr) as [-> ->], (ends_of n _ _ g ltac:(lia) Hg) as [-> ->], (ends_of n _ _ b ltac:(lia) Hb) as [-> ->].
  assert (L : forall p lo hi, isShaper n lo hi p -> List.length (fst p) = n) by (intros p ? ? Q; apply Q).
  rewrite (L r _ _ Hr), (L g _ _ Hg), (L b _ _ Hb), !Nat.max_id, (proj2 (Nat.ltb_lt 2 n)) by lia. cbn [bind].
  rewrite !pymin_R, !pymax_R. set (lo := Rmin (Rmin lor log) lob). set (hi := Rmax (Rmax hir hig) hib).
  assert (S0 : samplePoint 0 (n * 2) lo hi = Ok lo).
  { rewrite samplePoint_R by lia. f_equal. unfold gridPoint. cbn [INR]. unfold Rdiv. ring. }
  assert (C : forall p l h, isShaper n l h p -> lo <= l -> l <> lo -> prelutAt (fst p) (snd p) n lo = Err ZeroDivisionError).
  { intros p l h Q Hl Hne. destruct Q as (Lx & Ly & Q & <- & _). apply prelutAt_below; [lia|assumption|lra]. }
  assert (E : forall p l h, isShaper n l h p -> l = lo -> exists y, prelutAt (fst p) (snd p) n lo = Ok y).
  { intros p l h Q ->. destruct (prelutAt_R n lo h p lo ltac:(lia) Q) as (y & Ey & _); [|now exists y].
    split; [lra|]. destruct Q as (Lx & _ & Q & H0 & <-). rewrite <- H0. left. apply rising_lt; [exact Q|lia]. }
  assert (Hmin : lo <= lor /\ lo <= log /\ lo <= lob) by (unfold lo, Rmin; repeat destruct Rle_dec; lra).
  assert (M : mapM (fun p => prelutAt (fst p) (snd p) n lo) [r; g; b] = Err ZeroDivisionError).
  { cbn [mapM]. destruct (Req_dec lor lo) as [Er|Er]; [|rewrite (C r _ _ Hr) by tauto; reflexivity].
    destruct (E r _ _ Hr Er) as [yr ->]. cbn [bind].
    destruct (Req_dec log lo) as [Eg|Eg]; [|rewrite (C g _ _ Hg) by tauto; reflexivity].
    destruct (E g _ _ Hg Eg) as [yg ->]. cbn [bind].
    destruct (Req_dec lob lo) as [Eb|Eb]; [|rewrite (C b _ _ Hb) by tauto; reflexivity].
    exfalso. apply D. split; congruence. }
  unfold fillSamples. destruct n as [|n']; [lia|]. cbn [Nat.mul Nat.add seq for_each]. 
  change (S (S (n' * 2))) with (S n' * 2)%nat. rewrite S0. cbn [bind]. rewrite M. reflexivity.
Qed.

(** With two points only the inputs count. *)
Theorem prelut_short {T} {N : Num T} (ri ro gi go bi bo ro' go' bo' : list T) :
  (List.length ri <= 2 -> List.length gi <= 2 -> List.length bi <= 2 ->
  generateCLFPrelut (ri, ro) (gi, go) (bi, bo) = generateCLFPrelut (ri, ro') (gi, go') (bi, bo'))%nat.
Proof.
  intros Hr Hg Hb. unfold generateCLFPrelut. cbn [fst snd]. rewrite (proj2 (Nat.ltb_ge 2 _)) by lia. reflexivity.
Qed.
