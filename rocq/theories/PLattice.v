(** Proofs about sample1D and sample3D. *)
From Coq Require Import Lra.
From Verif Require Export PInverse3.

Section Loops.
  Context {T : Type} {N : Num T}.

  Lemma loop_build {A S} n (item : nat -> res A) (body : nat -> S -> res S) (mk : list A -> S) :
    (forall k xs, k < n -> List.length xs = k -> body k (mk xs) = let* x := item k in Ok (mk (xs ++ [x]))) ->
    for_each (seq 0 n) body (mk []) = let* xs := mapM item (seq 0 n) in Ok (mk xs).
  Proof.
    intro H. assert (G : forall k, k <= n -> for_each (seq 0 k) body (mk []) = let* xs := mapM item (seq 0 k) in Ok (mk xs)).
    { induction k as [|k IH]; intro Hk; [reflexivity|].
      rewrite seq_S, for_each_app, IH, mapM_snoc by lia. cbn [Nat.add].
      destruct (mapM item (seq 0 k)) as [xs|e] eqn:E; [|reflexivity]. cbn [bind for_each].
      rewrite H by (lia || (apply mapM_length in E; now rewrite seq_length in E)).
      destruct (item k); reflexivity. }
    now apply G.
  Qed.

  Definition put {A} (l : list A) (i : nat) (x : A) : list A := firstn i l ++ x :: skipn (S i) l.

  Lemma getn_put {A} (l : list A) i x : i < List.length l -> getn (put l i x) i = Ok x.
  Proof.
    intro H. apply getn_some. unfold put. rewrite nth_error_app2 by (rewrite firstn_length; lia).
    rewrite firstn_length, Nat.min_l, Nat.sub_diag by lia. reflexivity.
  Qed.
  Lemma put_length {A} (l : list A) i x : i < List.length l -> List.length (put l i x) = List.length l.
  Proof. intro H. unfold put. rewrite app_length, firstn_length. cbn [List.length]. rewrite skipn_length. lia. Qed.
  Lemma put_put {A} (l : list A) i x y : i < List.length l -> put (put l i x) i y = put l i y.
  Proof.
    intro H. unfold put. rewrite firstn_app, firstn_firstn, Nat.min_id, firstn_length, Nat.min_l, Nat.sub_diag by lia.
    rewrite firstn_O, app_nil_r. f_equal. f_equal. rewrite skipn_app, firstn_length, Nat.min_l by lia.
    rewrite skipn_all2 by (rewrite firstn_length; lia). replace (S i - i) with 1 by lia. reflexivity.
  Qed.
  Lemma setn_put {A} (l : list A) i x : i < List.length l -> setn l i x = Ok (put l i x).
  Proof. intro H. rewrite setn_lt by assumption. reflexivity. Qed.
  Lemma put_same {A} (l : list A) i x : nth_error l i = Some x -> put l i x = l.
  Proof.
    intro H. unfold put. transitivity (firstn i l ++ skipn i l); [|apply firstn_skipn]. f_equal. symmetry.
    clear - H. revert i H. induction l as [|y t IH]; intros [|i] H; try discriminate.
    - injection H as ->. reflexivity.
    - cbn [skipn nth_error] in *. destruct t as [|z u]; [destruct i; discriminate|]. now rewrite (IH i H).
  Qed.
  Lemma put_tail {A} (xs : list A) z m v : put (xs ++ repeat z (S m)) (List.length xs) v = (xs ++ [v]) ++ repeat z m.
  Proof.
    unfold put. rewrite firstn_app, Nat.sub_diag, firstn_O, app_nil_r, firstn_all.
    rewrite skipn_app, skipn_all2 by lia. replace (S (List.length xs) - List.length xs) with 1 by lia.
    cbn [repeat skipn app]. now rewrite <- app_assoc.
  Qed.

  Definition padded {A} (z : A) (total : nat) (xs : list A) : list A := xs ++ repeat z (total - List.length xs).
  Lemma padded_length {A} (z : A) total xs : List.length xs <= total -> List.length (padded z total xs) = total.
  Proof. intro H. unfold padded. rewrite app_length, repeat_length. lia. Qed.
  Lemma padded_put {A} (z : A) total xs v : List.length xs < total ->
    put (padded z total xs) (List.length xs) v = padded z total (xs ++ [v]).
  Proof.
    intro H. unfold padded. replace (total - List.length xs) with (S (total - List.length (xs ++ [v]))) by (rewrite app_length; cbn; lia).
    apply put_tail.
  Qed.
  Lemma padded_next {A} (z : A) total xs : List.length xs < total -> nth_error (padded z total xs) (List.length xs) = Some z.
  Proof.
    intro H. unfold padded. rewrite nth_error_app2 by lia. rewrite Nat.sub_diag.
    replace (total - List.length xs) with (S (total - List.length xs - 1)) by lia. reflexivity.
  Qed.
  Lemma padded_nil {A} (z : A) total : padded z total [] = repeat z total.
  Proof. unfold padded. cbn. now rewrite Nat.sub_0_r. Qed.
  Lemma padded_full {A} (z : A) total xs : List.length xs = total -> padded z total xs = xs.
  Proof. intros <-. unfold padded. rewrite Nat.sub_diag. apply app_nil_r. Qed.

  Variable sample : nat -> nat -> nat -> res (list T).

  Lemma row_loop (s : lattice T) r plane g r0 (row : list (list T)) z :
    nth_error s r = Some plane -> nth_error plane g = Some row -> row = repeat z r0 -> forall k, k <= r0 ->
    for_each (seq 0 k) (fun b acc => let* v := sample r g b in latticeSet acc r g b v) s =
    let* vs := mapM (sample r g) (seq 0 k) in Ok (put s r (put plane g (padded z r0 vs))).
  Proof.
    intros Hs Hp Hrow k Hk.
    assert (Hr : r < List.length s) by (apply nth_error_Some; congruence).
    assert (Hg : g < List.length plane) by (apply nth_error_Some; congruence).
    pose (mk := fun vs => put s r (put plane g (padded z r0 vs))).
    assert (E0 : s = mk []) by (unfold mk; rewrite padded_nil, <- Hrow, (put_same plane), put_same by assumption; reflexivity).
    rewrite E0 at 1. apply (loop_build k (sample r g)).
    intros i xs Hi Hl. destruct (sample r g i) as [v|e]; [|reflexivity]. cbn [bind].
    unfold mk, latticeSet. rewrite getn_put by assumption. cbn [bind]. rewrite getn_put by assumption. cbn [bind].
    rewrite setn_put by (rewrite padded_length; lia). cbn [bind]. rewrite setn_put by (rewrite put_length; assumption). cbn [bind].
    rewrite setn_put by (rewrite put_length; assumption). rewrite !put_put by assumption.
    assert (Q : put (padded z r0 xs) i v = padded z r0 (xs ++ [v])) by (rewrite <- Hl; apply padded_put; lia).
    rewrite Q. reflexivity.
  Qed.

  Lemma plane_loop (s : lattice T) r plane r0 r1 r2 (z : list T) :
    nth_error s r = Some plane -> plane = repeat (repeat z r0) r1 -> r2 <= r0 -> forall k, k <= r1 ->
    for_each (seq 0 k) (fun g acc => for_each (seq 0 r2) (fun b acc => let* v := sample r g b in latticeSet acc r g b v) acc) s =
    let* rows := mapM (fun g => let* vs := mapM (sample r g) (seq 0 r2) in Ok (padded z r0 vs)) (seq 0 k) in
    Ok (put s r (padded (repeat z r0) r1 rows)).
  Proof.
    intros Hs Hp H2 k Hk.
    assert (Hr : r < List.length s) by (apply nth_error_Some; congruence).
    pose (mk := fun rows => put s r (padded (repeat z r0) r1 rows)).
    assert (E0 : s = mk []) by (unfold mk; rewrite padded_nil, <- Hp, put_same by assumption; reflexivity).
    rewrite E0 at 1. apply (loop_build k (fun g => let* vs := mapM (sample r g) (seq 0 r2) in Ok (padded z r0 vs))).
    intros g rows Hg Hl.
    rewrite (row_loop (mk rows) r (padded (repeat z r0) r1 rows) g r0 (repeat z r0) z); [|apply getn_some|rewrite <- Hl; apply padded_next; lia|reflexivity|exact H2].
    - destruct (mapM (sample r g) (seq 0 r2)) as [vs|e]; [|reflexivity]. cbn [bind]. unfold mk. rewrite put_put by assumption.
      assert (Q : put (padded (repeat z r0) r1 rows) g (padded z r0 vs) = padded (repeat z r0) r1 (rows ++ [padded z r0 vs])) by (rewrite <- Hl; apply padded_put; lia).
      rewrite Q. reflexivity.
    - unfold mk. now apply getn_put.
  Qed.

  (** With equal first and last resolution the loops compute the nested table. *)
  Lemma lattice_loop r0 r1 : fillLattice r0 r1 r0 sample =
    mapM (fun r => mapM (fun g => mapM (sample r g) (seq 0 r0)) (seq 0 r1)) (seq 0 r0).
  Proof.
    unfold fillLattice, emptyLattice. set (z := [n0; n0; n0]).
    pose (E := repeat (repeat z r0) r1).
    pose (mk := fun planes : lattice T => padded E r0 planes).
    assert (E0 : repeat (repeat (repeat z r0) r1) r0 = mk []) by (unfold mk; rewrite padded_nil; reflexivity).
    rewrite E0.
    rewrite (loop_build r0 (fun r => mapM (fun g => mapM (sample r g) (seq 0 r0)) (seq 0 r1))).
    - destruct (mapM _ (seq 0 r0)) as [ps|e] eqn:Em; [|reflexivity]. cbn [bind]. unfold mk.
      rewrite padded_full; [reflexivity|]. apply mapM_length in Em. now rewrite seq_length in Em.
    - intros r planes Hr Hl.
      rewrite (plane_loop (mk planes) r E r0 r1 r0 z); [|unfold mk; rewrite <- Hl; apply padded_next; lia|reflexivity|lia|lia].
      assert (Ei : mapM (fun g => let* vs := mapM (sample r g) (seq 0 r0) in Ok (padded z r0 vs)) (seq 0 r1) =
                   mapM (fun g => mapM (sample r g) (seq 0 r0)) (seq 0 r1)).
      { apply mapM_ext. intros g _. destruct (mapM (sample r g) (seq 0 r0)) as [vs|e] eqn:Ev; [|reflexivity]. cbn [bind].
        rewrite padded_full; [reflexivity|]. apply mapM_length in Ev. now rewrite seq_length in Ev. }
      rewrite Ei. clear Ei. destruct (mapM (fun g => mapM (sample r g) (seq 0 r0)) (seq 0 r1)) as [rows|e] eqn:Er; [|reflexivity]. cbn [bind].
      rewrite padded_full by (apply mapM_length in Er; now rewrite seq_length in Er).
      unfold mk. rewrite <- Hl. rewrite padded_put by lia. reflexivity.
  Qed.

  (** With a larger last resolution the first row already overflows; with a larger
      first one the planes run out. *)
  Lemma for_each_stops {A S} (xs : list A) (body : A -> S -> res S) (Inv : S -> Prop) x s :
    In x xs -> Inv s ->
    (forall y t t', In y xs -> Inv t -> body y t = Ok t' -> Inv t') ->
    (forall t, Inv t -> exists e, body x t = Err e) ->
    (exists e, for_each xs body s = Err e).
  Proof.
    intros Hx Hs Hinv Hfail. revert s Hs. induction xs as [|y ys IH]; intros s Hs; [contradiction|]. cbn [for_each].
    destruct (body y s) as [t|e] eqn:E; [|exists e; reflexivity]. cbn [bind].
    destruct Hx as [->|Hx].
    - destruct (Hfail s Hs) as [e Ee]. congruence.
    - apply IH; [assumption| |eapply Hinv; eauto; now left]. intros; eapply Hinv; eauto; now right.
  Qed.

  Lemma for_each_why {A S} (xs : list A) (body : A -> S -> res S) (Inv : S -> Prop) s e0 e :
    Inv s -> (forall y t t', In y xs -> Inv t -> body y t = Ok t' -> Inv t') ->
    (forall y t e, In y xs -> Inv t -> body y t = Err e -> e = e0) -> for_each xs body s = Err e -> e = e0.
  Proof.
    revert s. induction xs as [|y ys IH]; intros s Hs Hinv Hw H; [discriminate|]. cbn [for_each] in H.
    destruct (body y s) as [t|e1] eqn:E; cbn [bind] in H.
    - eapply (IH t); eauto; [eapply Hinv; eauto; now left| |]; intros; [eapply Hinv|eapply Hw]; eauto; now right.
    - injection H as <-. eapply Hw; eauto. now left.
  Qed.

  Definition shaped (a b c : nat) (s : lattice T) : Prop :=
    List.length s = a /\ Forall (fun p => List.length p = b /\ Forall (fun q => List.length q = c) p) s.

  Lemma setn_Forall {A} (P : A -> Prop) l i x l' : Forall P l -> P x -> setn l i x = Ok l' -> Forall P l' /\ List.length l' = List.length l.
  Proof.
    intros HF Hx. revert i l'. induction HF as [|y t Hy HF IH]; intros [|i] l' H; cbn [setn] in H; try discriminate.
    - apply Ok_inj in H. subst. split; [constructor; assumption|reflexivity].
    - apply bind_ok in H. destruct H as [t' [Ht H]]. apply Ok_inj in H. subst. destruct (IH _ _ Ht) as [A1 A2].
      split; [constructor; assumption|cbn; now rewrite A2].
  Qed.

  Lemma setn_err {A} (l : list A) i x e : setn l i x = Err e -> e = IndexError.
  Proof.
    revert i. induction l as [|y t IH]; intros [|i] H; cbn [setn] in H; try congruence.
    destruct (setn t i x) as [t'|e'] eqn:E; cbn [bind] in H; [discriminate|]. injection H as <-. eauto.
  Qed.
  Lemma getn_err {A} (l : list A) i e : getn l i = Err e -> e = IndexError.
  Proof. unfold getn. destruct (nth_error l i); congruence. Qed.

  Lemma latticeSet_shape a b c s r g bb v s' : shaped a b c s -> latticeSet s r g bb v = Ok s' -> shaped a b c s'.
  Proof.
    intros [Hl HF] H. unfold latticeSet in H.
    apply bind_ok in H. destruct H as [plane [Hp H]]. apply bind_ok in H. destruct H as [row [Hr H]].
    apply bind_ok in H. destruct H as [row' [Hr' H]]. apply bind_ok in H. destruct H as [plane' [Hp' H]].
    apply getn_some in Hp, Hr. apply nth_error_In in Hp, Hr. rewrite Forall_forall in HF.
    destruct (HF _ Hp) as [L1 F1]. assert (F1' := F1). rewrite Forall_forall in F1'. pose proof (F1' _ Hr) as L2.
    assert (Lr : List.length row' = c).
    { destruct (setn_Forall (fun _ => True) _ _ _ _ ltac:(apply Forall_forall; auto) I Hr'). congruence. }
    destruct (setn_Forall _ _ _ _ _ F1 Lr Hp') as [F2 L3].
    destruct (setn_Forall (fun p => List.length p = b /\ Forall (fun q => List.length q = c) p) _ _ _ _
                ltac:(apply Forall_forall; exact HF) (conj (eq_trans L3 L1) F2) H) as [F3 L4].
    split; [congruence|exact F3].
  Qed.

  Lemma latticeSet_err (s : lattice T) r g b v e : latticeSet s r g b v = Err e -> e = IndexError.
  Proof.
    unfold latticeSet. intro H.
    destruct (getn s r) as [plane|e1] eqn:E1; cbn [bind] in H; [|apply getn_err in E1; congruence].
    destruct (getn plane g) as [row|e2] eqn:E2; cbn [bind] in H; [|apply getn_err in E2; congruence].
    destruct (setn row b v) as [row'|e3] eqn:E3; cbn [bind] in H; [|apply setn_err in E3; congruence].
    destruct (setn plane g row') as [pl|e4] eqn:E4; cbn [bind] in H; [|apply setn_err in E4; congruence].
    eapply setn_err; eauto.
  Qed.

  Lemma setn_over {A} (l : list A) i x : List.length l <= i -> setn l i x = Err IndexError.
  Proof.
    revert i. induction l as [|y t IH]; intros i H; [reflexivity|]. destruct i as [|i]; [cbn in H; lia|]. cbn [setn].
    rewrite IH by (cbn in H; lia). reflexivity.
  Qed.

  Lemma latticeSet_over a b c (s : lattice T) r g k v : shaped a b c s -> (a <= r \/ c <= k) -> exists e, latticeSet s r g k v = Err e.
  Proof.
    intros [Hl HF] Hb. unfold latticeSet. destruct (getn s r) as [plane|] eqn:E1; [|eexists; reflexivity]. cbn [bind].
    destruct (getn plane g) as [row|] eqn:E2; [|eexists; reflexivity]. cbn [bind].
    apply getn_some in E1, E2. destruct Hb as [Hb|Hb].
    - exfalso. assert (r < List.length s) by (apply nth_error_Some; congruence). lia.
    - apply nth_error_In in E1, E2. rewrite Forall_forall in HF. destruct (HF _ E1) as [_ F]. rewrite Forall_forall in F.
      rewrite setn_over by (rewrite (F _ E2); exact Hb). eexists; reflexivity.
  Qed.

  Lemma empty_shaped r0 r1 r2 : shaped r2 r1 r0 (emptyLattice r0 r1 r2).
  Proof.
    unfold emptyLattice. split; [apply repeat_length|]. apply Forall_forall. intros p Hp. apply repeat_spec in Hp. subst.
    split; [apply repeat_length|]. apply Forall_forall. intros q Hq. apply repeat_spec in Hq. subst. apply repeat_length.
  Qed.

  Lemma lattice_noncubic r0 r1 r2 : r0 <> r2 -> 1 <= r0 -> 1 <= r1 -> 1 <= r2 ->
    exists e, fillLattice r0 r1 r2 sample = Err e /\
      ((forall r g b, r < r0 -> g < r1 -> b < r2 -> is_ok (sample r g b)) -> e = IndexError).
  Proof.
    intros Hne H0 H1 H2.
    pose (Inv := shaped r2 r1 r0).
    assert (S3 : forall r g b t t', Inv t -> (let* v := sample r g b in latticeSet t r g b v) = Ok t' -> Inv t').
    { intros r g b t t' Ht E. apply bind_ok in E. destruct E as [v [_ E]]. eapply latticeSet_shape; eauto. }
    assert (S2 : forall r g t t', Inv t -> for_each (seq 0 r2) (fun b acc => let* v := sample r g b in latticeSet acc r g b v) t = Ok t' -> Inv t').
    { intros r g t t' Ht E. refine (for_each_inv Inv _ _ _ _ _ Ht E). intros b0 u u' Hu Eu. exact (S3 _ _ _ _ _ Hu Eu). }
    assert (S1 : forall r t t', Inv t -> for_each (seq 0 r1) (fun g acc => for_each (seq 0 r2) (fun b acc => let* v := sample r g b in latticeSet acc r g b v) acc) t = Ok t' -> Inv t').
    { intros r t t' Ht E. refine (for_each_inv Inv _ _ _ _ _ Ht E). intros g0 u u' Hu Eu. exact (S2 _ _ _ _ Hu Eu). }
    assert (F : exists e, fillLattice r0 r1 r2 sample = Err e).
    { unfold fillLattice.
      pose (bad := if Nat.ltb r0 r2 then 0 else r2).
      pose (badb := if Nat.ltb r0 r2 then r0 else 0).
      assert (Hbad : bad < r0 /\ badb < r2 /\ (r2 <= bad \/ r0 <= badb)).
      { unfold bad, badb. destruct (Nat.ltb_spec r0 r2); lia. }
      apply (for_each_stops _ _ Inv bad); [apply in_seq; lia|apply empty_shaped|intros; eapply S1; eauto|].
      intros t Ht. apply (for_each_stops _ _ Inv 0); [apply in_seq; lia|exact Ht|intros; eapply S2; eauto|].
      intros t1 Ht1. apply (for_each_stops _ _ Inv badb); [apply in_seq; lia|exact Ht1|intros; eapply S3; eauto|].
      intros t2 Ht2. destruct (sample bad 0 badb) as [v|e]; [|eexists; reflexivity]. cbn [bind].
      eapply latticeSet_over; [exact Ht2|tauto]. }
    destruct F as [e E]. exists e. split; [exact E|]. intro Hok. unfold fillLattice in E.
    refine (for_each_why _ _ Inv _ IndexError e (empty_shaped r0 r1 r2) _ _ E); [intros y u u' _ Hu Eu; exact (S1 _ _ _ Hu Eu)|].
    intros r t e1 Hr Ht E1. apply in_seq in Hr.
    refine (for_each_why _ _ Inv _ IndexError e1 Ht _ _ E1); [intros y u u' _ Hu Eu; exact (S2 _ _ _ _ Hu Eu)|].
    intros g t1 e2 Hg Ht1 E2. apply in_seq in Hg.
    refine (for_each_why _ _ Inv _ IndexError e2 Ht1 _ _ E2); [intros y u u' _ Hu Eu; exact (S3 _ _ _ _ _ Hu Eu)|].
    intros b t2 e3 Hb Ht2 E3. apply in_seq in Hb. cbv beta in E3.
    destruct (Hok r g b ltac:(lia) ltac:(lia) ltac:(lia)) as [v Ev]. rewrite Ev in E3. cbn [bind] in E3.
    eapply latticeSet_err; eauto.
  Qed.
End Loops.
