(** IndexMap in exact arithmetic. *)
From Coq Require Import Lra.
From Verif Require Export PLut1D.
Local Open Scope R_scope.

(** Which segment the search ends in. *)
Lemma search_spec (ins outs : list R) v : forall fuel i,
  List.length outs = List.length ins -> (i + 1 < List.length ins)%nat ->
  v <= nth (List.length ins - 1) ins 0 -> (List.length ins - 1 - i <= fuel)%nat ->
  exists j, (i <= j)%nat /\ (j + 1 < List.length ins)%nat /\
    (forall k, (i <= k < j)%nat -> nth (k + 1) ins 0 < v) /\ v <= nth (j + 1) ins 0 /\
    imapSearch fuel i ins outs v =
    Ok ((v - nth j ins 0) / (nth (j + 1) ins 0 - nth j ins 0) * (nth (j + 1) outs 0 - nth j outs 0) + nth j outs 0).
Proof.
  induction fuel as [|fuel IH]; intros i Ho Hi Hv Hf; [lia|]. cbn [imapSearch].
  rewrite (getn_nth ins (i + 1)) by lia. cbn [bind]. realize.
  destruct (Rleb v (nth (i + 1) ins 0)) eqn:E.
  - apply Rleb_spec in E. exists i. repeat split; try lia; try assumption.
    rewrite !getn_nth by lia. cbn [bind]. reflexivity.
  - apply Rleb_false in E.
    destruct (Nat.eq_dec (i + 1) (List.length ins - 1)) as [Hl|Hl].
    { rewrite <- Hl in Hv. lra. }
    destruct (IH (i + 1)%nat Ho ltac:(lia) Hv ltac:(lia)) as [j [H1 [H2 [H3 [H4 H5]]]]].
    exists j. repeat split; try lia; try assumption.
    intros k Hk. destruct (Nat.eq_dec k i) as [->|Hn]; [assumption|]. apply H3. lia.
Qed.

(** The whole evaluation. *)
Definition seg (m : imap R) (j : nat) (v : R) : R :=
  (v - nth j (im_in m) 0) / (nth (j + 1) (im_in m) 0 - nth j (im_in m) 0) * (nth (j + 1) (im_out m) 0 - nth j (im_out m) 0)
  + nth j (im_out m) 0.

Lemma pyget_last (l : list R) : l <> [] -> pyget l (-1) = Ok (nth (List.length l - 1) l 0).
Proof.
  intro H. assert (1 <= List.length l)%nat by (destruct l; [congruence|cbn; lia]).
  unfold pyget. cbn [Z.ltb Z.compare]. cbv zeta.
  assert (E : (-1 + Z.of_nat (List.length l) <? 0)%Z = false) by (apply Z.ltb_ge; lia). rewrite E.
  rewrite (nth_error_nth' l 0) by lia. do 2 f_equal. lia.
Qed.

Lemma pyget_first (l : list R) : l <> [] -> pyget l 0 = Ok (nth 0 l 0).
Proof. destruct l; [congruence|reflexivity]. Qed.

Lemma imap_cases (m : imap R) v : wellFormedMap m ->
  let n := List.length (im_in m) in
  (v <= nth 0 (im_in m) 0 /\ imapProcess m v = Ok (nth 0 (im_out m) 0)) \/
  (nth 0 (im_in m) 0 < v /\ nth (n - 1) (im_in m) 0 <= v /\ imapProcess m v = Ok (nth (n - 1) (im_out m) 0)) \/
  (nth 0 (im_in m) 0 < v < nth (n - 1) (im_in m) 0 /\
   exists j, (j + 1 < n)%nat /\ (forall k, (k <= j)%nat -> nth k (im_in m) 0 < v) /\ v <= nth (j + 1) (im_in m) 0 /\
             imapProcess m v = Ok (seg m j v)).
Proof.
  intros [Hne [Hl _]] n. unfold imapProcess. realize. cbv zeta. rewrite pyget_first by assumption. cbn [bind].
  assert (Hno : im_out m <> []) by (intro E; rewrite E in Hl; destruct (im_in m); [congruence|discriminate]).
  destruct (Rleb v (nth 0 (im_in m) 0)) eqn:E1.
  { left. apply Rleb_spec in E1. split; [assumption|]. now apply pyget_first. }
  apply Rleb_false in E1. rewrite (pyget_last (im_in m)) by assumption. cbn [bind].
  destruct (Rleb (nth (List.length (im_in m) - 1) (im_in m) 0) v) eqn:E2.
  { right; left. apply Rleb_spec in E2. split; [assumption|]. split; [assumption|]. rewrite pyget_last by assumption. rewrite Hl. reflexivity. }
  apply Rleb_false in E2. right; right. split; [split; assumption|].
  assert (Hn2 : (0 + 1 < List.length (im_in m))%nat).
  { destruct (im_in m) as [|x [|y t]]; [congruence| |cbn; lia]. cbn in E1, E2. lra. }
  destruct (search_spec (im_in m) (im_out m) v (List.length (im_in m)) 0 Hl Hn2 ltac:(lra) ltac:(lia))
    as [j [H1 [H2 [H3 [H4 H5]]]]].
  exists j. repeat split; try assumption.
  intros k Hk. destruct k as [|k]; [assumption|]. replace (S k) with (k + 1)%nat by lia. apply H3. lia.
Qed.

Definition imapFun (m : imap R) (v : R) : R := match imapProcess m v with Ok y => y | Err _ => 0 end.

Lemma imapFun_ok m v : wellFormedMap m -> imapProcess m v = Ok (imapFun m v).
Proof. intro H. unfold imapFun. destruct (imap_total m H v) as [y E]. rewrite E. reflexivity. Qed.

Lemma seg_ratio (m : imap R) j v : nth j (im_in m) 0 < v -> v <= nth (j + 1) (im_in m) 0 ->
  exists u, 0 < u <= 1 /\ seg m j v = u * (nth (j + 1) (im_out m) 0 - nth j (im_out m) 0) + nth j (im_out m) 0.
Proof.
  intros H1 H2. exists ((v - nth j (im_in m) 0) / (nth (j + 1) (im_in m) 0 - nth j (im_in m) 0)). split; [|reflexivity].
  set (a := nth j (im_in m) 0) in *. set (b := nth (j + 1) (im_in m) 0) in *.
  assert (0 < / (b - a)) by (apply Rinv_0_lt_compat; lra).
  split; [unfold Rdiv; nra|].
  assert (E : (b - a) * / (b - a) = 1) by (field; lra). unfold Rdiv. nra.
Qed.

(** Results stay between any bounds of the outputs; sorted inputs are not needed. *)
Theorem imap_bounded (m : imap R) lo hi v : wellFormedMap m -> Forall (fun y => lo <= y <= hi) (im_out m) ->
  lo <= imapFun m v <= hi.
Proof.
  intros H F. assert (Hl : List.length (im_out m) = List.length (im_in m)) by apply H.
  assert (Hne : (0 < List.length (im_in m))%nat) by (destruct (im_in m) eqn:E; [destruct H; congruence|cbn; lia]).
  assert (G : forall k, (k < List.length (im_in m))%nat -> lo <= nth k (im_out m) 0 <= hi).
  { intros k Hk. eapply (proj1 (Forall_forall _ _) F). apply nth_In. lia. }
  unfold imapFun. destruct (imap_cases m v H) as [[_ E]|[[_ [_ E]]|[_ [j [Hj [Hlow [Hhi E]]]]]]]; rewrite E.
  - apply G. lia.
  - apply G. lia.
  - destruct (seg_ratio m j v (Hlow j (le_n j)) Hhi) as [u [Hu ->]].
    pose proof (G j ltac:(lia)). pose proof (G (j + 1)%nat ltac:(lia)). nra.
Qed.

Lemma increasing_lt l : risingInputs l -> forall i j, (i < j)%nat -> (j < List.length l)%nat -> nth i l 0 < nth j l 0.
Proof.
  intros H i j Hij. induction j as [|j IH]; intro Hj; [lia|].
  destruct (Nat.eq_dec i j) as [->|Hn].
  - replace (S j) with (j + 1)%nat by lia. apply H. lia.
  - eapply Rlt_trans; [apply IH; lia|]. replace (S j) with (j + 1)%nat by lia. apply H. lia.
Qed.

Theorem imap_knots (m : imap R) : wellFormedMap m -> risingInputs (im_in m) ->
  (forall k, (k < List.length (im_in m))%nat -> imapFun m (nth k (im_in m) 0) = nth k (im_out m) 0) /\
  (forall k x, (k + 1 < List.length (im_in m))%nat -> nth k (im_in m) 0 <= x <= nth (k + 1) (im_in m) 0 ->
     imapFun m x = through (nth k (im_in m) 0) (nth k (im_out m) 0) (nth (k + 1) (im_in m) 0) (nth (k + 1) (im_out m) 0) x).
Proof.
  intros H Hi. assert (Hl : List.length (im_out m) = List.length (im_in m)) by apply H.
  assert (Hne : (0 < List.length (im_in m))%nat) by (destruct (im_in m) eqn:E; [destruct H; congruence|cbn; lia]).
  pose proof (increasing_lt _ Hi) as Hlt.
  assert (A : forall k, (k < List.length (im_in m))%nat -> imapFun m (nth k (im_in m) 0) = nth k (im_out m) 0).
  { intros k Hk. unfold imapFun.
    destruct (imap_cases m (nth k (im_in m) 0) H) as [[C E]|[[C1 [C2 E]]|[_ [j [Hj [Hlow [Hhi E]]]]]]]; rewrite E.
    - destruct (Nat.eq_dec k 0) as [->|Hn]; [reflexivity|]. pose proof (Hlt 0%nat k ltac:(lia) Hk). lra.
    - destruct (Nat.eq_dec k (List.length (im_in m) - 1)) as [->|Hn]; [reflexivity|].
      pose proof (Hlt k (List.length (im_in m) - 1)%nat ltac:(lia) ltac:(lia)). lra.
    - assert (k = j + 1)%nat as ->.
      { destruct (Nat.lt_trichotomy k (j + 1)) as [Hc|[Hc|Hc]]; [|exact Hc|].
        - pose proof (Hlow k ltac:(lia)). lra.
        - pose proof (Hlt (j + 1)%nat k Hc Hk). lra. }
      unfold seg. pose proof (Hlt j (j + 1)%nat ltac:(lia) ltac:(lia)). field. lra. }
  split; [exact A|].
  intros k x Hk [H1 H2]. pose proof (Hlt k (k + 1)%nat ltac:(lia) ltac:(lia)) as Hkk.
  destruct (Req_dec x (nth k (im_in m) 0)) as [->|Hnk].
  { rewrite A by lia. unfold through. field. lra. }
  destruct (Req_dec x (nth (k + 1) (im_in m) 0)) as [->|Hnk2].
  { rewrite A by lia. unfold through. field. lra. }
  unfold imapFun. destruct (imap_cases m x H) as [[C E]|[[C1 [C2 E]]|[_ [j [Hj [Hlow [Hhi E]]]]]]]; rewrite E.
  - destruct k as [|k]; [lra|]. pose proof (Hlt 0%nat (S k) ltac:(lia) ltac:(lia)). lra.
  - destruct (Nat.eq_dec (k + 1) (List.length (im_in m) - 1)) as [Hq|Hq]; [rewrite <- Hq in C2; lra|].
    pose proof (Hlt (k + 1)%nat (List.length (im_in m) - 1)%nat ltac:(lia) ltac:(lia)). lra.
  - assert (j = k) as ->.
    { destruct (Nat.lt_trichotomy j k) as [Hc|[Hc|Hc]]; [|exact Hc|].
      - destruct (Nat.eq_dec (j + 1) k) as [<-|Hq]; [lra|]. pose proof (Hlt (j + 1)%nat k ltac:(lia) ltac:(lia)). lra.
      - pose proof (Hlow (k + 1)%nat ltac:(lia)). lra. }
    unfold seg, through. field. lra.
Qed.

Theorem imap_saturates (m : imap R) v : wellFormedMap m ->
  (v <= nth 0 (im_in m) 0 -> imapFun m v = nth 0 (im_out m) 0) /\
  (nth 0 (im_in m) 0 < v -> nth (List.length (im_in m) - 1) (im_in m) 0 <= v ->
   imapFun m v = nth (List.length (im_in m) - 1) (im_out m) 0).
Proof.
  intro H. unfold imapFun. split.
  - intro Hv. destruct (imap_cases m v H) as [[C E]|[[C1 [C2 E]]|[C _]]]; [rewrite E; reflexivity|lra|lra].
  - intros H1 H2. destruct (imap_cases m v H) as [[C E]|[[C1 [C2 E]]|[C _]]]; [lra|rewrite E; reflexivity|lra].
Qed.

Lemma nondec_le n e : nondecreasing n e -> forall i j, (i <= j)%nat -> (j < n)%nat -> e i <= e j.
Proof.
  intros H i j Hij Hj. induction j as [|j IH].
  - assert (i = 0)%nat as -> by lia. lra.
  - destruct (Nat.eq_dec i (S j)) as [->|Hn]; [lra|]. eapply Rle_trans; [apply IH; lia|].
    replace (S j) with (j + 1)%nat by lia. apply H. lia.
Qed.

(** Non-decreasing outputs make it monotone, sorted inputs or not. *)
Theorem imap_monotone (m : imap R) : wellFormedMap m ->
  nondecreasing (List.length (im_out m)) (fun k => nth k (im_out m) 0) ->
  forall v w, v <= w -> imapFun m v <= imapFun m w.
Proof.
  intros H Hd v w Hvw. assert (Hl : List.length (im_out m) = List.length (im_in m)) by apply H. rewrite Hl in Hd.
  assert (Hne : (0 < List.length (im_in m))%nat) by (destruct (im_in m) eqn:E; [destruct H; congruence|cbn; lia]).
  pose proof (nondec_le _ _ Hd) as Hle. cbv beta in Hle.
  assert (B : forall j x, (j + 1 < List.length (im_in m))%nat -> nth j (im_in m) 0 < x -> x <= nth (j + 1) (im_in m) 0 ->
              nth j (im_out m) 0 <= seg m j x <= nth (j + 1) (im_out m) 0).
  { intros j x Hj H1 H2. destruct (seg_ratio m j x H1 H2) as [u [Hu ->]]. pose proof (Hle j (j + 1)%nat ltac:(lia) Hj). nra. }
  unfold imapFun.
  destruct (imap_cases m v H) as [[C E]|[[C1 [C2 E]]|[C [j [Hj [Hlow [Hhi E]]]]]]]; rewrite E;
  destruct (imap_cases m w H) as [[C' E']|[[C1' [C2' E']]|[C' [j' [Hj' [Hlow' [Hhi' E']]]]]]]; rewrite E'; try lra.
  - apply Hle; lia.
  - destruct (B j' w Hj' (Hlow' j' (le_n _)) Hhi') as [G _]. eapply Rle_trans; [|exact G]. apply Hle; lia.
  - destruct (B j v Hj (Hlow j (le_n _)) Hhi) as [_ G]. eapply Rle_trans; [exact G|]. apply Hle; lia.
  - assert (Hjj : (j <= j')%nat).
    { destruct (Nat.le_gt_cases j j') as [|Hc]; [assumption|]. pose proof (Hlow (j' + 1)%nat ltac:(lia)). lra. }
    destruct (Nat.eq_dec j j') as [<-|Hn].
    + unfold seg. pose proof (Hlow' j (le_n _)) as Ha. pose proof (Hle j (j + 1)%nat ltac:(lia) Hj) as Hb.
      set (a := nth j (im_in m) 0) in *. set (b := nth (j + 1) (im_in m) 0) in *.
      set (p := nth j (im_out m) 0) in *. set (q := nth (j + 1) (im_out m) 0) in *.
      pose proof (Hlow j (le_n _)).
      assert (0 < / (b - a)) by (apply Rinv_0_lt_compat; lra). unfold Rdiv.
      apply Rplus_le_compat_r. apply Rmult_le_compat_r; [lra|]. apply Rmult_le_compat_r; lra.
    + destruct (B j v Hj (Hlow j (le_n _)) Hhi) as [_ G]. destruct (B j' w Hj' (Hlow' j' (le_n _)) Hhi') as [G' _].
      pose proof (Hle (j + 1)%nat j' ltac:(lia) ltac:(lia)). lra.
Qed.

(** A LUT1D with index maps reads its table at the mapped position. *)
Theorem lut1d_mapped c h dIn a n :
  isLUT1D h dIn a n -> goodMaps (indexMaps (h_elems h)) -> indexMaps (h_elems h) <> [] -> (2 <= n)%nat ->
  exists f, actsPerChannel c (Node h BLUT1D) f /\
    forall ch m x y, (ch < 3)%nat -> mapFor (indexMaps (h_elems h)) ch m -> imapProcess m x = Ok y ->
      (forall k, (k < n)%nat -> y = INR k -> f ch x = entry1D a k ch) /\
      (forall k, (k + 1 < n)%nat -> INR k <= y <= INR (k + 1) ->
         f ch x = through (INR k) (entry1D a k ch) (INR (k + 1)) (entry1D a (k + 1) ch) y) /\
      (y <= 0 -> f ch x = entry1D a 0 ch) /\ (INR (n - 1) <= y -> f ch x = entry1D a (n - 1) ch).
Proof.
  intros H [Hcount Hgood] Hne Hn. set (ims := indexMaps (h_elems h)) in *.
  assert (Hp : 0 < INR (n - 1)) by (apply lt_0_INR; lia).
  assert (Hpick : forall ch, (ch < 3)%nat -> exists m, mapFor ims ch m /\ wellFormedMap m /\
            match ims with [] => Err IndexError | m0 :: rest => match rest with [] => Ok m0 | _ => getn ims ch end end = Ok m).
  { intros ch Hch. destruct ims as [|m0 [|m1 rest]]; [congruence| |].
    - exists m0. split; [left; reflexivity|]. split; [now inversion Hgood|reflexivity].
    - assert (H3 : (3 <= List.length (m0 :: m1 :: rest))%nat) by (cbn in *; lia).
      destruct (nth_error (m0 :: m1 :: rest) ch) as [m|] eqn:E; [|apply nth_error_None in E; lia].
      exists m. split; [right; auto|]. split; [eapply (proj1 (Forall_forall _ _) Hgood); eapply nth_error_In; eauto|].
      apply getn_some. exact E. }
  assert (Hdet : forall ch m m', (ch < 3)%nat -> mapFor ims ch m -> mapFor ims ch m' -> m = m').
  { intros ch m m' _ [E1|[L1 E1]] [E2|[L2 E2]]; try congruence; [rewrite E1 in L2|rewrite E2 in L1]; cbn in *; lia. }
  pose (pos := fun ch x => match match ims with [] => Err IndexError | m0 :: rest => match rest with [] => Ok m0 | _ => getn ims ch end end
                         with Ok m => imapFun m x / INR (n - 1) | Err _ => 0 end).
  exists (fun ch x => lin (entryZ a n ch) (pos ch x * INR (n - 1))). split.
  - apply (lut1d_lookups c h dIn a n pos H). intros ch x Hch. destruct (Hpick ch Hch) as [m [Hm [Hwm Em]]].
    unfold stage, pos. fold ims. destruct ims as [|m0 rest] eqn:Ei; [congruence|]. rewrite Em. cbn [bind].
    rewrite imapFun_ok by assumption. cbn [bind]. unfold dim.
    destruct H as [_ [_ [_ [_ [_ [Hw Hd]]]]]].
    assert (Ed : getn (a_dims a) 0 = Ok n) by (destruct (a_dims a); [discriminate|injection Hd as ->; reflexivity]).
    rewrite Ed. cbn [bind]. realize. rewrite INR_pred by lia. reflexivity.
  - intros ch m x y Hch Hm Ey. destruct (Hpick ch Hch) as [m' [Hm' [Hwm Em]]].
    assert (m' = m) as -> by (eapply Hdet; eauto).
    assert (Epos : pos ch x * INR (n - 1) = y).
    { unfold pos. rewrite Em. rewrite imapFun_ok in Ey by assumption. apply Ok_inj in Ey. rewrite Ey. field. lra. }
    rewrite Epos. repeat split.
    + intros k Hk ->. rewrite INR_IZR_INZ, lin_at. now apply entryZ_nat.
    + intros k Hk Hy. rewrite (lin_cell _ _ (Z.of_nat k)).
      * replace (Z.of_nat k + 1)%Z with (Z.of_nat (k + 1)) by lia. rewrite !entryZ_nat by lia.
        rewrite <- INR_IZR_INZ. unfold through. rewrite plus_INR. cbn [INR]. field. lra.
      * replace (Z.of_nat k + 1)%Z with (Z.of_nat (k + 1)) by lia. rewrite <- !INR_IZR_INZ. exact Hy.
    + intro Hy. apply lin_low; [lia|assumption].
    + intro Hy. apply lin_high; [lia|assumption].
Qed.

Theorem imap_all (m : imap R) : wellFormedMap m ->
  exists f, (forall x, imapProcess m x = Ok (f x)) /\
    (forall lo hi, Forall (fun y => lo <= y <= hi) (im_out m) -> forall x, lo <= f x <= hi) /\
    (nondecreasing (List.length (im_out m)) (fun k => nth k (im_out m) 0) -> forall x y, x <= y -> f x <= f y) /\
    (forall x, x <= nth 0 (im_in m) 0 -> f x = nth 0 (im_out m) 0) /\
    (forall x, nth 0 (im_in m) 0 < x -> nth (List.length (im_in m) - 1) (im_in m) 0 <= x ->
       f x = nth (List.length (im_in m) - 1) (im_out m) 0) /\
    (risingInputs (im_in m) ->
       (forall k, (k < List.length (im_in m))%nat -> f (nth k (im_in m) 0) = nth k (im_out m) 0) /\
       (forall k x, (k + 1 < List.length (im_in m))%nat -> nth k (im_in m) 0 <= x <= nth (k + 1) (im_in m) 0 ->
          f x = through (nth k (im_in m) 0) (nth k (im_out m) 0) (nth (k + 1) (im_in m) 0) (nth (k + 1) (im_out m) 0) x)).
Proof.
  intro H. exists (imapFun m). split; [intro; now apply imapFun_ok|].
  split; [intros; now apply imap_bounded|]. split; [now apply imap_monotone|].
  split; [intros x; apply (proj1 (imap_saturates m x H))|]. split; [intros x; apply (proj2 (imap_saturates m x H))|].
  now apply imap_knots.
Qed.
