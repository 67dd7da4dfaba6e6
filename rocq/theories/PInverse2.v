(** Proofs about inverted 1D LUTs, part 2: the inverses found by searching. *)
From Coq Require Import Lra.
From Verif Require Export PInverse.

Section Rows.
  Context {T : Type} {N : Num T}.

  Lemma repeat_plus (x : T) a b : repeat x (a + b) = repeat x a ++ repeat x b.
  Proof. apply repeat_app. Qed.

  Lemma concat_rows_length ch (rows : list (list T)) : Forall (fun r => List.length r = ch) rows ->
    List.length (List.concat rows) = List.length rows * ch.
  Proof. induction 1 as [|r rows Hr _ IH]; [reflexivity|]. cbn [List.concat List.length]. rewrite app_length, IH, Hr. lia. Qed.

  Lemma mapM_rows {A} (row : A -> res (list T)) ch l rows :
    (forall i v, row i = Ok v -> List.length v = ch) -> mapM row l = Ok rows -> Forall (fun r => List.length r = ch) rows.
  Proof.
    intros H. revert rows. induction l as [|x t IH]; intros rows E; cbn [mapM] in E.
    - apply Ok_inj in E. subst. constructor.
    - apply bind_ok in E. destruct E as [v [Ev E]]. apply bind_ok in E. destruct E as [vs [Evs E]]. apply Ok_inj in E. subst.
      constructor; [eapply H; eauto|auto].
  Qed.

  Lemma mapM_snoc {A B} (f : A -> res B) l x :
    mapM f (l ++ [x]) = let* ys := mapM f l in let* y := f x in Ok (ys ++ [y]).
  Proof.
    rewrite mapM_app. destruct (mapM f l) as [ys|e]; [|reflexivity]. cbn [bind mapM].
    destruct (f x) as [y|e]; reflexivity.
  Qed.

  Lemma fill_rows n ch (row : nat -> res (list T)) :
    (forall i v, row i = Ok v -> List.length v = ch) ->
    for_each (seq 0 n) (fun i acc => let* v := row i in Ok (pySliceSet acc (i * ch) ((i + 1) * ch) v)) (repeat n0 (n * ch)) =
    let* rows := mapM row (seq 0 n) in Ok (List.concat rows).
  Proof.
    intro Hrow.
    assert (G : forall k, k <= n ->
      for_each (seq 0 k) (fun i acc => let* v := row i in Ok (pySliceSet acc (i * ch) ((i + 1) * ch) v)) (repeat n0 (n * ch)) =
      let* rows := mapM row (seq 0 k) in Ok (List.concat rows ++ repeat n0 ((n - k) * ch))).
    { induction k as [|k IH]; intro Hk; [cbn; do 2 f_equal; lia|].
      rewrite seq_S, for_each_app, IH, mapM_snoc by lia. cbn [Nat.add].
      destruct (mapM row (seq 0 k)) as [rows|e] eqn:Er; [|reflexivity]. cbn [bind for_each].
      destruct (row k) as [v|e] eqn:Ev; [|reflexivity]. cbn [bind for_each]. f_equal.
      pose proof (mapM_rows _ ch _ _ Hrow Er) as HF. pose proof (concat_rows_length _ _ HF) as Hl.
      apply mapM_length in Er. rewrite seq_length in Er. rewrite Er in Hl.
      unfold pySliceSet. rewrite concat_app. cbn [List.concat]. rewrite app_nil_r.
      rewrite firstn_app, Hl, Nat.sub_diag, firstn_O, app_nil_r, firstn_all2 by lia.
      rewrite skipn_app, Hl, skipn_all2 by lia. cbn [app].
      replace ((k + 1) * ch - k * ch) with ch by lia. replace ((n - k) * ch) with (ch + (n - S k) * ch) by nia.
      rewrite repeat_plus, skipn_app, repeat_length, Nat.sub_diag, skipn_all2 by (rewrite repeat_length; lia).
      cbn [app skipn]. now rewrite app_assoc. }
    rewrite G by lia. destruct (mapM row (seq 0 n)); [|reflexivity]. cbn [bind]. f_equal.
    rewrite Nat.sub_diag. cbn. apply app_nil_r.
  Qed.

  Lemma concat_rows_nth ch (rows : list (list T)) i k d : Forall (fun r => List.length r = ch) rows -> k < ch -> i < List.length rows ->
    nth (i * ch + k) (List.concat rows) d = nth k (nth i rows []) d.
  Proof.
    intros HF Hk. revert i. induction HF as [|r rows Hr HF IH]; intros i Hi; [cbn in Hi; lia|].
    destruct i as [|i]; cbn [List.concat nth].
    - rewrite app_nth1 by (cbn; lia). reflexivity.
    - rewrite app_nth2 by (rewrite Hr; nia). rewrite <- IH by (cbn in Hi; lia). f_equal. rewrite Hr. lia.
  Qed.

  Lemma mapM_seq_nth {B} (f : nat -> res B) n ys i : mapM f (seq 0 n) = Ok ys -> i < n -> forall d, f i = Ok (nth i ys d).
  Proof.
    intros H Hi d. assert (E : nth_error (seq 0 n) i = Some i) by (rewrite (nth_error_nth' _ 0) by (rewrite seq_length; lia); rewrite seq_nth; auto).
    destruct (mapM_nth f _ _ _ _ H E) as [y [Ey Ny]]. rewrite Ey. f_equal. symmetry. now apply nth_error_nth.
  Qed.
End Rows.

Local Open Scope R_scope.

Lemma searchTable_R samples channels channel y (e : nat -> R) : forall m a last,
  (forall i, (a <= i < a + m)%nat -> getn samples (i * channels + channel) = Ok (e i)) ->
  exists j, searchTable samples channels channel y last (seq a m) = Ok j /\ (((a <= j < a + m)%nat /\ y < e j /\ forall i, (a <= i < j)%nat -> e i <= y) \/
     (j = (match m with O => last | _ => a + m - 1 end)%nat /\ forall i, (a <= i < a + m)%nat -> e i <= y)).
Proof.
  induction m as [|m IH]; intros a last Hg; cbn [seq searchTable].
  - exists last. split; [reflexivity|]. right. split; [reflexivity|]. intros; lia.
  - rewrite Hg by lia. cbn [bind]. change (nltb y (e a)) with (Rltb y (e a)).
    destruct (Rltb y (e a)) eqn:E.
    + apply Rltb_spec in E. exists a. split; [reflexivity|]. left. split; [lia|]. split; [assumption|]. intros; lia.
    + assert (E' : e a <= y). { destruct (Rle_dec (e a) y); [assumption|]. exfalso. assert (y < e a) by lra. apply Rltb_spec in H. congruence. }
      destruct (IH (S a) a) as [j [Ej Hj]]; [intros; apply Hg; lia|]. exists j. split; [exact Ej|].
      destruct Hj as [[H1 [H2 H3]]|[H1 H2]].
      * left. split; [lia|]. split; [assumption|]. intros i Hi. destruct (Nat.eq_dec i a) as [->|]; [assumption|apply H3; lia].
      * right. split.
        { destruct m; subst j; lia. }
        intros i Hi. destruct (Nat.eq_dec i a) as [->|]; [assumption|apply H2; lia].
Qed.

Section Positions.
  Variables (n channels : nat) (samples : list R).
  Hypothesis HT : risingTable n channels samples.
  Let e := column channels samples.

  Lemma sample_get channel i : (channel < channels)%nat -> (i < n)%nat ->
    getn samples (i * channels + channel) = Ok (e channel i).
  Proof.
    intros Hc Hi. destruct HT as [_ [Hch [Hl _]]]. rewrite getn_nth by (rewrite Hl; nia).
    unfold e, column. do 3 f_equal. lia.
  Qed.

  Lemma inverseAt_R channel y : (channel < channels)%nat ->
    exists p, inverseAt samples channels channel n y = Ok p /\ isPosition n (e channel) y p.
  Proof.
    intros Hc. pose proof (table_n _ _ _ HT) as Hn. pose proof (table_pos _ _ _ HT) as Hp.
    assert (Hc3 : (channel < 3)%nat) by (destruct HT as [_ [[->| ->] _]]; lia).
    unfold inverseAt, searchLut.
    destruct (searchTable_R samples channels channel y (e channel) n 0 0) as [j [Ej Hj]].
    { intros i Hi. apply sample_get; [assumption|lia]. }
    destruct n as [|n'] eqn:En; [lia|]. rewrite <- En in *. rewrite Ej. cbn [bind].
    assert (Hjn : (j < n)%nat) by (destruct Hj as [[? _]|[? _]]; subst; lia).
    replace (Nat.min (n - 1) j) with j by lia.
    assert (Rn : pyfdiv = fun x y : R => if Reqb y 0 then Err ZeroDivisionError else Ok (x / y)) by reflexivity.
    assert (Hdiv : forall a b : R, b <> 0 -> pyfdiv a b = Ok (a / b)).
    { intros a b Hb. unfold pyfdiv. realize. destruct (Reqb b 0) eqn:Eb; [apply Reqb_spec in Eb; contradiction|reflexivity]. }
    pose proof (table_rise n channels samples HT channel) as Hrise. fold e in Hrise.
    destruct j as [|j].
    - cbn [Nat.sub Nat.eqb bind]. rewrite Hdiv by (realize; rewrite INR_pred by lia; lra). realize. rewrite INR_pred by lia.
      eexists. split; [reflexivity|]. change (Z.of_nat 0) with 0%Z.
      assert (Hy : y < e channel 0%nat).
      { destruct Hj as [[_ [H _]]|[H _]]; [exact H|]. rewrite En in H. lia. }
      assert (E0 : (0 + 0) / INR (n - 1) = 0) by (unfold Rdiv; lra). rewrite E0.
      split; [reflexivity|]. split.
      + intros k Hk Hky. exfalso. destruct k as [|k]; [lra|]. pose proof (Hrise 0%nat (S k) Hc3 ltac:(lia) ltac:(lia)). lra.
      + intro H. pose proof (Hrise 0%nat (n - 1)%nat Hc3 ltac:(lia) ltac:(lia)). lra.
    - replace (S j - 1)%nat with j by lia. rewrite (proj2 (Nat.eqb_neq j (S j))) by lia.
      rewrite !sample_get by (assumption || lia). cbn [bind].
      pose proof (Hrise j (S j) Hc3 ltac:(lia) ltac:(lia)) as Hlt.
      rewrite Hdiv by (realize; lra). cbn [bind]. rewrite Hdiv by (realize; rewrite INR_pred by lia; lra).
      realize. rewrite INR_pred by lia. rewrite <- INR_IZR_INZ.
      eexists. split; [reflexivity|].
      assert (Hlow : e channel j <= y).
      { destruct Hj as [[_ [_ H]]|[_ H]]; apply H; lia. }
      assert (Hhigh : y < e channel (S j) \/ (S j = n - 1)%nat /\ e channel (n - 1)%nat <= y).
      { destruct Hj as [[_ [H _]]|[H1 H2]]; [now left|]. right. rewrite En in H1.
        assert (S j = n - 1)%nat by lia. split; [assumption|]. apply H2. lia. }
      split; [|split].
      + intro Hy. destruct j as [|j].
        * assert (y = e channel 0%nat) by lra. subst y. cbn [INR]. field. split; lra.
        * pose proof (Hrise 0%nat (S j) Hc3 ltac:(lia) ltac:(lia)). lra.
      + intros k Hk [K1 K2].
        destruct (lt_eq_lt_dec k j) as [[Hkj|Hkj]|Hkj].
        * assert (y = e channel j).
          { apply Rle_antisym; [|assumption]. destruct (Nat.eq_dec (k + 1) j) as [<-|D]; [assumption|].
            pose proof (Hrise (k + 1)%nat j Hc3 ltac:(lia) ltac:(lia)). lra. }
          assert (k + 1 = j)%nat.
          { destruct (Nat.eq_dec (k + 1) j) as [|D]; [assumption|].
            pose proof (Hrise (k + 1)%nat j Hc3 ltac:(lia) ltac:(lia)). lra. }
          pose proof (Hrise k (k + 1)%nat Hc3 ltac:(lia) ltac:(lia)). subst y j. rewrite plus_INR. cbn [INR].
          field. repeat split; lra.
        * subst k. replace (j + 1)%nat with (S j) by lia. field. split; lra.
        * exfalso. destruct Hhigh as [H|[H1 H2]].
          { destruct (Nat.eq_dec k (S j)) as [->|D]; [lra|]. pose proof (Hrise (S j) k Hc3 ltac:(lia) ltac:(lia)). lra. }
          lia.
      + intro Hy. assert (S j = n - 1)%nat.
        { destruct Hhigh as [H|[H _]]; [|exact H].
          destruct (Nat.eq_dec (S j) (n - 1)) as [|D]; [assumption|].
          pose proof (Hrise (S j) (n - 1)%nat Hc3 ltac:(lia) ltac:(lia)). lra. }
        rewrite <- H. replace (n - 2)%nat with j by lia. rewrite H. field. split; try lra; rewrite <- H; lra.
  Qed.

  Lemma position_unique f y p q : isPosition n f y p -> isPosition n f y q -> (2 <= n)%nat -> p = q.
  Proof.
    intros [A1 [A2 A3]] [B1 [B2 B3]] Hn.
    destruct (Rle_dec y (f 0%nat)) as [H|H]; [now rewrite A1, B1|].
    destruct (Rle_dec (f (n - 1)%nat) y) as [H'|H']; [now rewrite A3, B3|].
    assert (G : forall m, (m < n - 1)%nat -> y <= f (S m) -> exists k, (k + 1 < n)%nat /\ f k <= y <= f (k + 1)%nat).
    { induction m as [|m IH]; intros Hm Hy.
      - exists 0%nat. split; [lia|]. cbn. split; lra.
      - destruct (Rle_dec y (f (S m))) as [Hle|Hgt]; [apply IH; [lia|assumption]|].
        exists (S m). split; [lia|]. replace (S m + 1)%nat with (S (S m)) by lia. lra. }
    destruct (G (n - 2)%nat) as [k [Hk Hy]]; [lia|replace (S (n - 2)) with (n - 1)%nat by lia; lra|].
    now rewrite (A2 k), (B2 k).
  Qed.
End Positions.
