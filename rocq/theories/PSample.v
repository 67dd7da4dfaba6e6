(** LUT1D nodes sampled from a function. *)
From Coq Require Import Lra.
From Verif Require Export PMap.

Section Fill.
  Context {T : Type} {N : Num T}.
  Variable F : nat -> T.

  Definition filled (total p : nat) : list T := map F (seq 0 p) ++ repeat n0 (total - p).

  Lemma filled_step total p x : p < total -> x = F p -> setn (filled total p) p x = Ok (filled total (S p)).
  Proof.
    intros H ->. unfold filled. rewrite setn_lt by (rewrite app_length, map_length, seq_length, repeat_length; lia).
    f_equal. rewrite firstn_app, map_length, seq_length, Nat.sub_diag, firstn_O, app_nil_r.
    rewrite firstn_all2 by (rewrite map_length, seq_length; lia).
    rewrite skipn_app, map_length, seq_length. rewrite skipn_all2 by (rewrite map_length, seq_length; lia).
    replace (S p - p) with 1 by lia. replace (total - p) with (S (total - S p)) by lia. cbn [repeat skipn app].
    rewrite seq_S, map_app, <- app_assoc. reflexivity.
  Qed.

  Lemma fill_row total ch i x : (i + 1) * ch <= total -> (forall c, c < ch -> F (i * ch + c) = x) ->
    for_each (seq 0 ch) (fun c vals => setn vals (i * ch + c) x) (filled total (i * ch)) = Ok (filled total ((i + 1) * ch)).
  Proof.
    intros H HF.
    assert (G : forall k, k <= ch ->
      for_each (seq 0 k) (fun c vals => setn vals (i * ch + c) x) (filled total (i * ch)) = Ok (filled total (i * ch + k))).
    { induction k as [|k IH]; intro Hk; [rewrite Nat.add_0_r; reflexivity|].
      rewrite seq_S, for_each_app, IH by lia. cbn [bind for_each Nat.add]. rewrite filled_step; [|lia|symmetry; apply HF; lia].
      cbn [bind]. do 2 f_equal. lia. }
    rewrite G by lia. do 2 f_equal. lia.
  Qed.

  Lemma filled_start total : filled total 0 = repeat n0 total.
  Proof. unfold filled. cbn. now rewrite Nat.sub_0_r. Qed.
  Lemma filled_end total : filled total total = map F (seq 0 total).
  Proof. unfold filled. rewrite Nat.sub_diag. apply app_nil_r. Qed.
End Fill.

Lemma div_add_small i ch c : c < ch -> (i * ch + c) / ch = i.
Proof. intro H. rewrite Nat.div_add_l by lia. rewrite Nat.div_small by assumption. lia. Qed.

Section Sampled.
  Context {T : Type} {N : Num T}.

  Lemma fill_table n ch (g : nat -> T) :
    for_each (seq 0 n) (fun i vals => for_each (seq 0 ch) (fun c vals => setn vals (i * ch + c) (g i)) vals)
      (repeat n0 (n * ch)) = Ok (map (fun p => g (p / ch)) (seq 0 (n * ch))).
  Proof.
    rewrite <- (filled_start (fun p => g (p / ch))), <- filled_end.
    assert (G : forall k, k <= n ->
      for_each (seq 0 k) (fun i vals => for_each (seq 0 ch) (fun c vals => setn vals (i * ch + c) (g i)) vals)
        (filled (fun p => g (p / ch)) (n * ch) 0) = Ok (filled (fun p => g (p / ch)) (n * ch) (k * ch))).
    { induction k as [|k IH]; intro Hk; [reflexivity|].
      rewrite seq_S, for_each_app, IH by lia. cbn [bind for_each Nat.add].
      rewrite fill_row; [cbn [bind]; do 2 f_equal; lia|nia|]. intros c Hc. now rewrite div_add_small. }
    now apply G.
  Qed.

  (** A table whose entry [k] is [g k] in every channel. *)
  Lemma sampled_entry (g : nat -> T) n ch a :
    (ch = 1 \/ ch = 3) -> a_dims a = [n; ch] -> a_vals a = map (fun p => g (p / ch)) (seq 0 (n * ch)) ->
    forall k c, k < n -> c < 3 -> entry1D a k c = g k.
  Proof.
    intros Hch Hd Hv k c Hk Hc. unfold entry1D. rewrite Hd, Hv.
    assert (G : forall p, p < n * ch -> nth p (map (fun p => g (p / ch)) (seq 0 (n * ch))) n0 = g (p / ch)).
    { intros p Hp. apply nth_error_nth. rewrite nth_error_map, (nth_error_nth' _ 0) by (rewrite seq_length; lia).
      rewrite seq_nth by lia. reflexivity. }
    destruct Hch as [-> | ->]; rewrite G by lia; f_equal; [apply Nat.div_1_r|]. now apply div_add_small.
  Qed.
End Sampled.

Local Open Scope R_scope.

Lemma samplePos_R i n : (2 <= n)%nat -> samplePos i n = Ok (INR i / INR (n - 1)).
Proof.
  intro H. unfold samplePos, pyfdiv. realize. rewrite INR_pred by lia. rewrite <- INR_IZR_INZ.
  assert (0 < INR (n - 1)) by (apply lt_0_INR; lia).
  destruct (Reqb (INR (n - 1)) 0) eqn:E; [apply Reqb_spec in E; lra|reflexivity].
Qed.

Lemma sampledTable_R ch n (f : R -> R) : (2 <= n)%nat ->
  sampledTable ch n f = Ok (map (fun p => f (INR (p / ch) / INR (n - 1))) (seq 0 (n * ch))).
Proof.
  intro H. unfold sampledTable. rewrite <- (fill_table n ch (fun i => f (INR i / INR (n - 1)))).
  apply for_each_ext. intros i s _. rewrite samplePos_R by assumption. reflexivity.
Qed.

Lemma sampled_node id tid ch n (f : R -> R) dIn dOut :
  (2 <= n)%nat -> (ch = 1 \/ ch = 3)%nat ->
  exists h a, simpleSampledLUT id tid ch n f dIn dOut = Ok (Node h BLUT1D) /\
    isLUT1D h dIn a n /\ indexMaps (h_elems h) = [] /\
    forall k c, (k < n)%nat -> (c < 3)%nat -> entry1D a k c = f (INR k / INR (n - 1)).
Proof.
  intros Hn Hch. unfold simpleSampledLUT. rewrite sampledTable_R by assumption. cbn [bind].
  unfold setArray1D, pydiv. rewrite (map_length _ (seq _ _)), seq_length.
  assert (Ech : match ch with O => Err ZeroDivisionError | _ => Ok (n * ch / ch)%nat end = Ok n).
  { destruct Hch as [-> | ->]; f_equal; now rewrite Nat.div_mul. }
  rewrite Ech.
  cbn [bind].
  set (vals := map _ _). eexists. eexists. split; [reflexivity|].
  split; [|split; [reflexivity|]].
  - split; [reflexivity|]. split; [eexists; reflexivity|]. split; [cbn; discriminate|]. split; [reflexivity|].
    split; [reflexivity|]. split; [|reflexivity].
    exists n, ch, []. repeat split; try lia. cbn [a_vals mkArray]. unfold vals. now rewrite map_length, seq_length.
  - intros k c Hk Hc. apply (sampled_entry (fun i => f (INR i / INR (n - 1))) n ch); [exact Hch|reflexivity|reflexivity|exact Hk|exact Hc].
Qed.

Lemma find_cell n t : (2 <= n)%nat -> 0 <= t <= INR (n - 1) -> exists k, (k + 1 < n)%nat /\ INR k <= t <= INR (k + 1).
Proof.
  intros Hn [H0 H1]. destruct n as [|[|m]]; try lia. replace (S (S m) - 1)%nat with (S m) in H1 by lia. clear Hn.
  induction m as [|m IH].
  - exists 0%nat. split; [lia|]. cbn in *. lra.
  - destruct (Rle_dec t (INR (S m))) as [Hle|Hgt].
    + destruct (IH Hle) as [k [Hk Hb]]. exists k. split; [lia|assumption].
    + exists (S m). split; [lia|]. replace (S m + 1)%nat with (S (S m)) by lia. lra.
Qed.

Theorem sampled_lut c id tid ch n (f : R -> R) dIn dOut :
  (2 <= n)%nat -> (ch = 1 \/ ch = 3)%nat ->
  exists node g, simpleSampledLUT id tid ch n f dIn dOut = Ok node /\ actsPerChannel c node g /\
    forall i, (i < 3)%nat ->
      (forall k, (k < n)%nat -> g i (codeAt dIn n k) = f (INR k / INR (n - 1))) /\
      (forall p q, (forall x, f x = p * x + q) -> forall x, 0 <= x <= fullScale dIn -> g i x = f (x / fullScale dIn)).
Proof.
  intros Hn Hch. destruct (sampled_node id tid ch n f dIn dOut Hn Hch) as [h [a [E [Hl [Hm He]]]]].
  destruct (lut1d_entries c h dIn a n Hl Hm Hn) as [g [Hg Hs]]. exists (Node h BLUT1D), g. split; [exact E|]. split; [exact Hg|].
  intros i Hi. destruct (Hs i Hi) as [A [B [C D]]]. split.
  - intros k Hk. rewrite A by assumption. now apply He.
  - intros p q Hf x [H0 H1].
    pose proof (fullScale_pos dIn) as Hfs. assert (Hp : 0 < INR (n - 1)) by (apply lt_0_INR; lia).
    destruct (find_cell n (x / fullScale dIn * INR (n - 1)) Hn) as [k [Hk Hb]].
    { pose proof (code_le dIn n 0 x Hn H0) as G1. pose proof (code_le dIn n x _ Hn H1) as G2.
      replace (fullScale dIn / fullScale dIn * INR (n - 1)) with (INR (n - 1)) in G2 by (field; lra). unfold Rdiv in *. lra. }
    assert (Hcode : codeAt dIn n k <= x <= codeAt dIn n (k + 1)).
    { unfold codeAt. set (u := x / fullScale dIn * INR (n - 1)) in *.
      assert (Ex : x = fullScale dIn * (u / INR (n - 1))) by (unfold u; field; lra). rewrite Ex.
      assert (0 < / INR (n - 1)) by now apply Rinv_0_lt_compat.
      unfold Rdiv. split; apply Rmult_le_compat_l; try lra; apply Rmult_le_compat_r; lra. }
    rewrite (D k x Hk Hcode), !He by lia. rewrite !Hf. unfold through, codeAt. rewrite plus_INR. cbn [INR]. field.
    repeat split; try lra.
Qed.

(** One sample is not enough: the position is 0.0/0. *)
Theorem sampled_single {T} {N : Num T} id tid ch (f : T -> T) dIn dOut :
  neqb (nofZ 0) (n0 (N := N)) = true -> simpleSampledLUT id tid ch 1 f dIn dOut = Err ZeroDivisionError.
Proof. intro H. unfold simpleSampledLUT, sampledTable, samplePos, pyfdiv. cbn [seq for_each].
  change (Z.of_nat 1 - 1)%Z with 0%Z. rewrite H. reflexivity. Qed.
