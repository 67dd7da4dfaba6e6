(** Proofs about changing the bit depths a list declares. *)
From Coq Require Import List String ZArith Lia Reals Lra Bool.
From Verif Require Import PBase PFacts PStruct PNode PChain PRange PBypass SpecDepth.
Import ListNotations.
Local Open Scope string_scope.
Local Open Scope list_scope.

Section Any.
  Context {T : Type} {NM : Num T}.

  Lemma bypass_skips c (n : node T) : skips (autodesk_on c) n = true <-> skipped c n.
  Proof.
    unfold skips, skipped, notBypassed, hasBypass, getAttribute. destruct (autodesk_on c); cbn [negb]; [|rewrite orb_true_r; split; [discriminate|intros [E _]; discriminate]].
    rewrite orb_false_r. destruct (dget (h_attrs (nheader n)) "bypass") as [[| |]|]; cbn; split; try discriminate;
      try (intros _; split; [reflexivity|eexists; split; [reflexivity|discriminate]]); try reflexivity;
      intros [_ (v & E & V)]; congruence.
  Qed.
  Lemma skips_false c (n : node T) : ~ skipped c n -> skips (autodesk_on c) n = false.
  Proof. intro H. destruct (skips (autodesk_on c) n) eqn:E; [|reflexivity]. now apply bypass_skips in E. Qed.
  Lemma skips_set hb (n : node T) k v : k <> "bypass" -> skips hb (setAttribute n k v) = skips hb n.
  Proof. intro K. unfold skips, notBypassed, getAttribute. destruct n as [h b]. cbn. now rewrite dget_dset_other by congruence. Qed.

  Lemma outcome_bind (r : res (pout T)) : outcome r = let* o := r in Ok (po_out o).
  Proof. destruct r; reflexivity. Qed.
  Lemma list_out c (l : plist T) values st :
    outcome (listProcess c l values st) = chainOut (autodesk_on c) (nodeProcess c) None (procs_of l) st (map nf32 values).
  Proof. rewrite outcome_bind. unfold listProcess. apply chain_out. Qed.

  (** ** Accessors *)
  Lemma last_attr (ps : list (node T)) p k v : setLastAttr (ps ++ [p]) k v = ps ++ [setAttribute p k v].
  Proof.
    induction ps as [|q ps IH]; [reflexivity|]. cbn [app setLastAttr]. rewrite IH. destruct ps; reflexivity.
  Qed.
  Lemma last_out (ps : list (node T)) p : lastOut (ps ++ [p]) = getOutBitDepth p.
  Proof. induction ps as [|q ps IH]; [reflexivity|]. cbn [app lastOut]. rewrite IH. destruct ps; reflexivity. Qed.

  Theorem depths_set (l : plist T) d : procs_of l <> [] ->
    listGetInBitDepth (listSetInBitDepth l d) = d /\ listGetOutBitDepth (listSetInBitDepth l d) = listGetOutBitDepth l /\
    listGetOutBitDepth (listSetOutBitDepth l d) = d /\ listGetInBitDepth (listSetOutBitDepth l d) = listGetInBitDepth l.
  Proof.
    destruct l as [a v e ps]. cbn [procs_of]. intro Hn.
    assert (G : forall p : node T, getInBitDepth (setAttribute p "inBitDepth" d) = d /\ getOutBitDepth (setAttribute p "inBitDepth" d) = getOutBitDepth p /\
      getOutBitDepth (setAttribute p "outBitDepth" d) = d /\ getInBitDepth (setAttribute p "outBitDepth" d) = getInBitDepth p).
    { intros [h b]. unfold getInBitDepth, getOutBitDepth, getAttribute. cbn [setAttribute hSetAttr nheader h_attrs].
      rewrite !dget_dset_same, !dget_dset_other by discriminate. repeat split. }
    split; [|split; [|split]].
    - destruct ps as [|p ps]; [congruence|]. cbn. apply G.
    - destruct ps as [|p [|q ps]]; [congruence| |reflexivity]. cbn. apply G.
    - destruct (exists_last Hn) as (ps' & p & ->). unfold listGetOutBitDepth, listSetOutBitDepth. cbn [procs_of]. rewrite last_attr, last_out. apply G.
    - destruct ps as [|p [|q ps]]; [congruence| |reflexivity]. cbn. apply G.
  Qed.

  Theorem depths_empty a v e (d : aval) : let l := PList a v e [] : plist T in
    listSetInBitDepth l d = l /\ listSetOutBitDepth l d = l /\ listGetInBitDepth l = ANone /\ listGetOutBitDepth l = ANone.
  Proof. repeat split. Qed.

  Theorem find_first (l : plist T) name n :
    getProcess l name = Some n <->
    exists before after, procs_of l = before ++ n :: after /\ getAttribute n "name" = name /\
      Forall (fun p => getAttribute p "name" <> name) before.
  Proof.
    unfold getProcess. induction (procs_of l) as [|p ps IH].
    - cbn. split; [discriminate|]. intros (before & after & E & _). destruct before; discriminate.
    - cbn [findNode]. destruct (aval_eqb (getAttribute p "name") name) eqn:E.
      + apply aval_eqb_eq in E. split.
        * intros [= <-]. exists [], ps. auto.
        * intros (before & after & Eq & Nm & F). destruct before as [|q before]; [injection Eq as -> _; reflexivity|].
          injection Eq as -> _. inversion F. congruence.
      + assert (Ne : getAttribute p "name" <> name).
        { intros <-. destruct (getAttribute p "name") as [s|x|]; cbn in E; [rewrite String.eqb_refl in E|rewrite Bool.eqb_reflx in E|]; discriminate. }
        rewrite IH. split; intros (before & after & Eq & Nm & F).
        * exists (p :: before), after. rewrite Eq. auto.
        * destruct before as [|q before]; [injection Eq as -> _; congruence|]. injection Eq as -> ->. inversion F. exists before, after. auto.
  Qed.

  (** ** Depths that are not looked at *)
  Lemma first_same c a v e n n' rest (values : list T) st :
    skips (autodesk_on c) n' = skips (autodesk_on c) n -> getOutBitDepth n' = getOutBitDepth n ->
    (skips (autodesk_on c) n = false -> forall v, outcome (nodeProcess c n' v st) = outcome (nodeProcess c n v st)) ->
    outcome (listProcess c (PList a v e (n' :: rest)) values st) = outcome (listProcess c (PList a v e (n :: rest)) values st).
  Proof.
    intros Sk Od Run. rewrite !list_out. cbn [procs_of chainOut]. rewrite Sk.
    destruct (skips (autodesk_on c) n) eqn:E.
    - cbn [bypassOut bind]. destruct rest as [|m rest]; [reflexivity|]. cbn [chainOut]. destruct (skips (autodesk_on c) m); [|reflexivity].
      unfold bypassOut. now rewrite Od.
    - specialize (Run eq_refl (map nf32 values)). rewrite !outcome_bind in Run. rewrite Run. apply bind_ext. intros o _.
      destruct rest as [|m rest]; [reflexivity|]. cbn [chainOut]. destruct (skips (autodesk_on c) m); [|reflexivity].
      unfold bypassOut. now rewrite Od.
  Qed.

  Lemma set_in_out (n : node T) d : getOutBitDepth (setAttribute n "inBitDepth" d) = getOutBitDepth n.
  Proof. destruct n as [h b]. unfold getOutBitDepth, getAttribute. cbn. now rewrite dget_dset_other by discriminate. Qed.

  (** The node with another input depth. *)
  Lemma dgetE_other {V} (m : list (string * V)) k k' v : k' <> k -> dgetE (dset m k v) k' = dgetE m k'.
  Proof. intro H. unfold dgetE. now rewrite dget_dset_other. Qed.
  Lemma dgetE_same {V} (m : list (string * V)) k v : dgetE (dset m k v) k = Ok v.
  Proof. unfold dgetE. now rewrite dget_dset_same. Qed.

  Lemma flag_other (h : header T) k k' v : k' <> k -> flagSet (hSetAttr h k v) k' = flagSet h k'.
  Proof. intro H. unfold flagSet. cbn. now rewrite dget_dset_other. Qed.

  Lemma indexStage_depth ims (arr : array T) dIn dIn' i k px : ims <> [] -> indexStage ims arr dIn i k px = indexStage ims arr dIn' i k px.
  Proof. destruct ims; [congruence|reflexivity]. Qed.

  Theorem input_unread c a v e h b rest (values : list T) st d0 d :
    dget (h_attrs h) "inBitDepth" = Some d0 ->
    skipped c (Node h b) \/ readsNoDepth b \/ (isLUT b /\ indexMaps (h_elems h) <> []) ->
    outcome (listProcess c (listSetInBitDepth (PList a v e (Node h b :: rest)) d) values st) =
    outcome (listProcess c (PList a v e (Node h b :: rest)) values st).
  Proof.
    intros D H. cbn [listSetInBitDepth]. apply first_same; [apply skips_set; discriminate|apply set_in_out|].
    intros Sk w. destruct H as [H|[H|[H I]]].
    - apply bypass_skips in H. congruence.
    - destruct b as [ | | | | | | | | |wr pl|ps]; try contradiction; cbn [setAttribute nodeProcess]; try reflexivity.
      unfold matrixProcess. cbn [hSetAttr h_attrs h_elems]. rewrite dgetE_same, dgetE_other by discriminate. unfold dgetE at 2. rewrite D. reflexivity.
    - destruct b; try contradiction; cbn [setAttribute nodeProcess].
      + unfold lut1dProcess. cbn [hSetAttr h_attrs h_elems]. rewrite dgetE_same, dgetE_other by discriminate. unfold dgetE at 2. rewrite D. cbn [bind].
        rewrite dget_dset_other by discriminate. rewrite flag_other by discriminate. f_equal. apply bind_ext. intros _ _.
        destruct (lastArray (h_elems h)) as [arr|]; [|reflexivity]. unfold lut1dPixel.
        destruct (indexMaps (h_elems h)) as [|m0 ms]; [congruence|]. reflexivity.
      + unfold lut3dProcess. cbn [hSetAttr h_attrs h_elems]. rewrite dgetE_same, dgetE_other by discriminate. unfold dgetE at 2. rewrite D. cbn [bind].
        rewrite dget_dset_other by discriminate. f_equal. apply bind_ext. intros _ _.
        destruct (lastArray (h_elems h)) as [arr|]; [|reflexivity]. unfold lut3dPixel.
        destruct (indexMaps (h_elems h)) as [|m0 ms]; [congruence|]. reflexivity.
  Qed.

  Lemma last_same c a v e n n' front (values : list T) st :
    skips (autodesk_on c) n' = skips (autodesk_on c) n -> getInBitDepth n' = getInBitDepth n ->
    (skips (autodesk_on c) n = false -> forall v, outcome (nodeProcess c n' v st) = outcome (nodeProcess c n v st)) ->
    outcome (listProcess c (PList a v e (front ++ [n'])) values st) = outcome (listProcess c (PList a v e (front ++ [n])) values st).
  Proof.
    intros Sk Id Run. rewrite !list_out. cbn [procs_of]. generalize (map nf32 values) as w. generalize (@None (node T)) as prev.
    induction front as [|m front IH]; intros prev w.
    - cbn [app chainOut hd_error]. rewrite Sk. destruct (skips (autodesk_on c) n) eqn:E.
      + unfold bypassOut. destruct prev; reflexivity.
      + specialize (Run eq_refl w). rewrite !outcome_bind in Run. now rewrite Run.
    - cbn [app chainOut]. assert (B : bypassOut prev (hd_error (front ++ [n'])) w = bypassOut prev (hd_error (front ++ [n])) w).
      { destruct front as [|q front]; [|reflexivity]. cbn [app hd_error]. unfold bypassOut. now rewrite Id. }
      rewrite B. apply bind_ext. intros o _. apply IH.
  Qed.

  Theorem output_unread c a v e h b front (values : list T) st d0 d :
    dget (h_attrs h) "outBitDepth" = Some d0 ->
    skipped c (Node h b) \/ readsNoDepth b \/ isLUT b ->
    outcome (listProcess c (listSetOutBitDepth (PList a v e (front ++ [Node h b])) d) values st) =
    outcome (listProcess c (PList a v e (front ++ [Node h b])) values st).
  Proof.
    intros D H. cbn [listSetOutBitDepth]. rewrite last_attr. apply last_same; [apply skips_set; discriminate| |].
    { unfold getInBitDepth, getAttribute. cbn. now rewrite dget_dset_other by discriminate. }
    intros Sk w. destruct H as [H|[H|H]].
    - apply bypass_skips in H. congruence.
    - destruct b as [ | | | | | | | | |wr pl|ps]; try contradiction; cbn [setAttribute nodeProcess]; try reflexivity.
      unfold matrixProcess. cbn [hSetAttr h_attrs h_elems]. rewrite dgetE_same, dgetE_other by discriminate. unfold dgetE at 3. rewrite D. reflexivity.
    - destruct b; try contradiction; cbn [setAttribute nodeProcess].
      + unfold lut1dProcess. cbn [hSetAttr h_attrs h_elems]. rewrite dgetE_same, dgetE_other by discriminate. unfold dgetE at 3. rewrite D. cbn [bind].
        rewrite dget_dset_other by discriminate. rewrite flag_other by discriminate. reflexivity.
      + unfold lut3dProcess. cbn [hSetAttr h_attrs h_elems]. rewrite dgetE_same, dgetE_other by discriminate. unfold dgetE at 3. rewrite D. cbn [bind].
        rewrite dget_dset_other by discriminate. reflexivity.
  Qed.
End Any.

(** ** Depths that scale, in exact arithmetic *)
Lemma indexed_at {A B} (f : nat -> A -> B) l k : nth_error (indexed f l) k = option_map (f k) (nth_error l k).
Proof.
  unfold indexed. rewrite nth_error_map.
  assert (G : forall m, nth_error (combine (seq m (List.length l)) l) k = option_map (fun x => ((m + k)%nat, x)) (nth_error l k)).
  { revert k. induction l as [|x l IH]; intros k m; [destruct k; reflexivity|]. destruct k as [|k]; cbn.
    - now rewrite Nat.add_0_r.
    - rewrite IH. replace (S m + k)%nat with (m + S k)%nat by lia. reflexivity. }
  rewrite (G 0%nat). destruct (nth_error l k); reflexivity.
Qed.
Lemma indexed_length {A B} (f : nat -> A -> B) l : List.length (indexed f l) = List.length l.
Proof. unfold indexed. rewrite map_length, combine_length, seq_length. lia. Qed.
Definition scaledColour (s : R) (px : list R) : list R := indexed (fun i x => if Nat.ltb i 3 then (s * x)%R else x) px.

Section Exact.
  Local Open Scope R_scope.

  (** [b'] is [b] with the samples at the positions [P] multiplied by [s]. *)
  Definition times (s : R) (P : nat -> bool) (b' b : list R) : Prop :=
    forall k, nth_error b' k = option_map (fun x => if P k then s * x else x) (nth_error b k).
  Definition both {A} (Q : A -> A -> Prop) (r' r : res A) : Prop :=
    match r', r with Ok x', Ok x => Q x' x | Err e', Err e => e' = e | _, _ => False end.

  Lemma both_bind {A B} (Q : A -> A -> Prop) (Q' : B -> B -> Prop) m' m k' k :
    both Q m' m -> (forall x' x, Q x' x -> both Q' (k' x') (k x)) -> both Q' (let* x := m' in k' x) (let* x := m in k x).
  Proof. destruct m', m; cbn; try contradiction; auto. Qed.
  Lemma both_refl {A} (r : res A) : both eq r r.
  Proof. destruct r; reflexivity. Qed.
  Lemma both_weak {A} (Q Q' : A -> A -> Prop) r' r : (forall x' x, Q x' x -> Q' x' x) -> both Q r' r -> both Q' r' r.
  Proof. destruct r', r; cbn; auto. Qed.
  Lemma both_eq {A} (r' r : res A) : both eq r' r -> r' = r.
  Proof. destruct r', r; cbn; intro H; try contradiction; congruence. Qed.

  Lemma times_none s P b' b : (forall k, P k = false) -> times s P b' b -> b' = b.
  Proof.
    intros Hp H. revert b H. revert P Hp. induction b' as [|x b' IH]; intros P Hp b H.
    - specialize (H 0%nat). destruct b; [reflexivity|discriminate].
    - destruct b as [|y b]; [specialize (H 0%nat); discriminate|]. f_equal.
      + specialize (H 0%nat). cbn in H. rewrite Hp in H. congruence.
      + apply (IH (fun k => P (S k))); [intro; apply Hp|]. intro k. exact (H (S k)).
  Qed.
  Lemma times_length s P b' b : times s P b' b -> List.length b' = List.length b.
  Proof.
    revert P b. induction b' as [|x b' IH]; intros P [|y b] H; [reflexivity|specialize (H 0%nat); discriminate|specialize (H 0%nat); discriminate|].
    cbn. f_equal. apply (IH (fun k => P (S k))). intro k. exact (H (S k)).
  Qed.
  Lemma times_ext s P P' b' b : (forall k, P k = P' k) -> times s P b' b -> times s P' b' b.
  Proof. intros E H k. rewrite <- E. apply H. Qed.
  Lemma times_refl s P b : (forall k, P k = false) -> times s P b b.
  Proof. intros H k. rewrite H. destruct (nth_error b k); reflexivity. Qed.

  (** One sample is replaced on both sides. *)
  Lemma upd_times s P P' i (f' f : R -> res R) b' b :
    times s P b' b -> (forall k, k <> i -> P' k = P k) ->
    (forall x, both (fun y' y => y' = if P' i then s * y else y) (f' (if P i then s * x else x)) (f x)) ->
    both (times s P') (upd b' i f') (upd b i f).
  Proof.
    intros H Hp Hf. unfold upd, getn. rewrite (H i). destruct (nth_error b i) as [x|] eqn:E; [|reflexivity]. cbn [option_map bind].
    eapply both_bind; [apply Hf|]. intros y' y ->. change (both (times s P') (setn b' i (if P' i then s * y else y)) (setn b i y)).
    assert (Lt : (i < List.length b)%nat) by (apply nth_error_Some; congruence). pose proof (times_length _ _ _ _ H) as Ln.
    destruct (setn_ok_ex b' i (if P' i then s * y else y)) as (c' & Ec' & _); [lia|]. destruct (setn_ok_ex b i y) as (c & Ec & _); [lia|].
    rewrite Ec', Ec. cbn [both]. intro k. rewrite (setn_nth _ _ _ _ k Ec'), (setn_nth _ _ _ _ k Ec).
    destruct (Nat.eqb_spec i k) as [<-|Ne]; [reflexivity|]. rewrite (H k), Hp by auto. reflexivity.
  Qed.
  Lemma upd_plain s P i f b' b : P i = false -> times s P b' b -> both (times s P) (upd b' i f) (upd b i f).
  Proof.
    intros Hp H. apply (upd_times s P P); auto. intro x. rewrite Hp. destruct (f x); reflexivity.
  Qed.

  Lemma for_each_both (Q : nat -> list R -> list R -> Prop) f' f : forall n k b' b,
    (forall i b' b, (k <= i < k + n)%nat -> Q i b' b -> both (Q (S i)) (f' i b') (f i b)) -> Q k b' b ->
    both (Q (k + n)%nat) (for_each (seq k n) f' b') (for_each (seq k n) f b).
  Proof.
    induction n as [|n IH]; intros k b' b Hf H; [now rewrite Nat.add_0_r|]. cbn [seq for_each].
    eapply both_bind; [apply Hf; [lia|exact H]|]. intros x' x Hx. replace (k + S n)%nat with (S k + n)%nat by lia.
    apply IH; [|exact Hx]. intros. apply Hf; [lia|assumption].
  Qed.

  Lemma copyExtra_both s P st b' b : (forall k, (3 <= k)%nat -> P k = false) -> (3 <= st)%nat ->
    times s P b' b -> both (times s P) (copyExtra st b') (copyExtra st b).
  Proof.
    intros Hp Hs H. unfold copyExtra.
    apply (for_each_both (fun _ => times s P)); [|exact H]. intros i c' c Hi Hc.
    unfold getn. rewrite (Hc i), Hp by lia. destruct (nth_error c i) as [x|] eqn:E; [|reflexivity]. cbn [option_map bind].
    assert (E' : nth_error c' i = Some x) by (rewrite (Hc i), Hp, E by lia; reflexivity).
    rewrite (setn_self _ _ _ E), (setn_self _ _ _ E'). exact Hc.
  Qed.

  (** *** Input *)
  Variables (d d' : aval).
  Let s := depthRatio d d'.
  Lemma norm_ratio x : bitDepthToNormalized (s * x) d' = bitDepthToNormalized x d.
  Proof.
    rewrite !(proj1 (proj2 (full_scale _ _))). unfold s, depthRatio. pose proof (fullScale_pos d). pose proof (fullScale_pos d'). field. split; lra.
  Qed.
  Lemma denorm_ratio x : normalizedToBitDepth x d' = s * normalizedToBitDepth x d.
  Proof.
    pose proof (fullScale_pos d). pose proof (fullScale_pos d').
    assert (F : forall y e, normalizedToBitDepth y e = y * fullScale e).
    { intros y e. destruct (depth_roundtrip y e) as [_ E]. rewrite (proj1 (proj2 (full_scale _ _))) in E. pose proof (fullScale_pos e).
      rewrite <- E at 2. field. lra. }
    rewrite !F. unfold s, depthRatio. field. lra.
  Qed.

  (** Positions still to be normalised, and positions already put out. *)
  Definition todo (i : nat) (k : nat) : bool := Nat.leb i k && Nat.ltb k 3.
  Definition done (i : nat) (k : nat) : bool := Nat.ltb k i.

  Ltac bools := repeat match goal with
    | |- context [Nat.leb ?a ?b] => destruct (Nat.leb_spec a b)
    | |- context [Nat.ltb ?a ?b] => destruct (Nat.ltb_spec a b)
    end; cbn; try reflexivity; try lia.

  Lemma norm_step i b' b : (i < 3)%nat -> times s (todo i) b' b ->
    both (times s (todo (S i))) (upd b' i (fun x => Ok (bitDepthToNormalized x d'))) (upd b i (fun x => Ok (bitDepthToNormalized x d))).
  Proof.
    intros Hi H. apply (upd_times s (todo i)); [exact H| |].
    - intros k Hk. unfold todo. bools.
    - intro x. replace (todo i i) with true by (unfold todo; bools). replace (todo (S i) i) with false by (unfold todo; bools).
      cbn [both]. apply norm_ratio.
  Qed.
  Lemma after_norm i f b' b : times s (todo (S i)) b' b -> both (times s (todo (S i))) (upd b' i f) (upd b i f).
  Proof. apply upd_plain. unfold todo. bools. Qed.
  Lemma denorm_step i b' b : times s (done i) b' b ->
    both (times s (done (S i))) (upd b' i (fun x => Ok (normalizedToBitDepth x d'))) (upd b i (fun x => Ok (normalizedToBitDepth x d))).
  Proof.
    intro H. apply (upd_times s (done i)); [exact H| |].
    - intros k Hk. unfold done. bools.
    - intro x. replace (done i i) with false by (unfold done; bools). replace (done (S i) i) with true by (unfold done; bools).
      cbn [both]. apply denorm_ratio.
  Qed.
  Lemma before_denorm i f b' b : times s (done i) b' b -> both (times s (done i)) (upd b' i f) (upd b i f).
  Proof. apply upd_plain. unfold done. bools. Qed.

  Lemma todo_all b' b : times s (todo 3) b' b -> b' = b.
  Proof. apply times_none. intro k. unfold todo. bools. Qed.
  Lemma scaled_todo px : times s (todo 0) (scaledColour s px) px.
  Proof. intro k. unfold scaledColour. rewrite indexed_at. destruct (nth_error px k); reflexivity. Qed.
  Lemma scaled_done px b' : times s (done 3) b' px -> b' = scaledColour s px.
  Proof.
    intro H. apply nth_error_ext. intro k. rewrite (H k), (scaled_todo px k). destruct (nth_error px k); cbn; [|reflexivity].
    unfold todo, done. bools.
  Qed.

  (** *** Pixels *)
  Lemma in_lut1d arr cubic hd st px : (3 <= st)%nat ->
    lut1dPixel arr [] d' cubic hd st (scaledColour s px) = lut1dPixel arr [] d cubic hd st px.
  Proof.
    intro Hs. apply both_eq. unfold lut1dPixel. replace (Nat.min 3 st) with 3%nat by lia.
    eapply both_bind with (Q := eq); [|intros x' x ->; apply both_refl].
    eapply both_weak; [apply todo_all|].
    apply (for_each_both (fun i => times s (todo i)) _ _ 3 0); [|apply scaled_todo]. intros i b' b Hi H.
    cbn [indexStage]. eapply both_bind; [apply norm_step; [lia|exact H]|]. intros c' c Hc. destruct cubic; [|destruct hd]; now apply after_norm.
  Qed.
  Lemma in_lut3d arr interp st px : (3 <= List.length px)%nat -> interp = AStr "trilinear" \/ interp = AStr "tetrahedral" ->
    lut3dPixel arr [] d' interp st (scaledColour s px) = lut3dPixel arr [] d interp st px.
  Proof.
    intros Hl _. apply both_eq. unfold lut3dPixel. unfold scaledColour at 1. rewrite indexed_length.
    replace (Nat.min 3 (List.length px)) with 3%nat by lia.
    eapply both_bind with (Q := eq); [|intros x' x ->; apply both_refl].
    eapply both_weak; [apply todo_all|].
    apply (for_each_both (fun i => times s (todo i)) _ _ 3 0); [|apply scaled_todo]. intros i b' b Hi H.
    cbn [indexStage]. apply norm_step; [lia|exact H].
  Qed.
  Lemma in_gamma f dOut ga of st px : gammaPixel (Some f) d' dOut ga of st (scaledColour s px) = gammaPixel (Some f) d dOut ga of st px.
  Proof.
    apply both_eq. unfold gammaPixel. eapply both_bind with (Q := eq); [|intros x' x ->; apply both_refl].
    eapply both_weak; [apply todo_all|].
    apply (for_each_both (fun i => times s (todo i)) _ _ 3 0); [|apply scaled_todo]. intros i b' b Hi H.
    eapply both_bind; [apply norm_step; [lia|exact H]|]. intros c' c Hc.
    eapply both_bind; [now apply after_norm|]. intros e' e He. now apply after_norm.
  Qed.
  Lemma in_logChannel f dOut i b' b : (i < 3)%nat -> times s (todo i) b' b -> both (times s (todo (S i))) (logChannel f d' dOut i b') (logChannel f d dOut i b).
  Proof.
    intros Hi H. unfold logChannel. eapply both_bind; [apply norm_step; [lia|exact H]|]. intros c' c Hc.
    eapply both_bind; [now apply after_norm|]. intros e' e He. now apply after_norm.
  Qed.
  Lemma in_log style dOut cs st px : style <> LOther -> logPixel style d' dOut cs st (scaledColour s px) = logPixel style d dOut cs st px.
  Proof.
    intro Hs. apply both_eq. unfold logPixel. eapply both_bind with (Q := eq); [|intros x' x ->; apply both_refl].
    eapply both_weak; [apply todo_all|].
    assert (Pl : forall f, both (times s (todo 3)) (for_each (seq 0 3) (fun i px => logChannel f d' dOut i px) (scaledColour s px))
                                (for_each (seq 0 3) (fun i px => logChannel f d dOut i px) px)).
    { intro f. apply (for_each_both (fun i => times s (todo i)) _ _ 3 0); [|apply scaled_todo]. intros i b' b Hi H. apply in_logChannel; [lia|exact H]. }
    assert (Ci : forall f : lchan R -> R -> R -> R -> R, both (times s (todo 3))
      (for_each (seq 0 3) (fun i px => let* c := getn cs i in let* (black, gain) := logBlackGain c in logChannel (f c black gain) d' dOut i px) (scaledColour s px))
      (for_each (seq 0 3) (fun i px => let* c := getn cs i in let* (black, gain) := logBlackGain c in logChannel (f c black gain) d dOut i px) px)).
    { intro f. apply (for_each_both (fun i => times s (todo i)) _ _ 3 0); [|apply scaled_todo]. intros i b' b Hi H.
      eapply both_bind; [apply both_refl|]. intros c' c ->. eapply both_bind; [apply both_refl|]. intros bg' bg ->. destruct bg as [black gain].
      apply in_logChannel; [lia|exact H]. }
    destruct style; try congruence; (apply Pl || apply Ci).
  Qed.
  Lemma in_cdl style dOut sl of po sat st px : style <> CdlOther ->
    cdlPixel style d' dOut sl of po sat st (scaledColour s px) = cdlPixel style d dOut sl of po sat st px.
  Proof.
    intro Hs. apply both_eq. unfold cdlPixel. eapply both_bind with (Q := eq); [|intros x' x ->; apply both_refl].
    assert (Go : forall (m' m : nat -> list R -> res (list R)) (k : list R -> res (list R)),
      (forall i b' b, (i < 3)%nat -> times s (todo i) b' b -> both (times s (todo (S i))) (m' i b') (m i b)) ->
      both eq (let* q := for_each (seq 0 3) m' (scaledColour s px) in k q) (let* q := for_each (seq 0 3) m px in k q)).
    { intros m' m k Hm. eapply both_bind with (Q := eq); [|intros x' x ->; apply both_refl]. eapply both_weak; [apply todo_all|].
      apply (for_each_both (fun i => times s (todo i)) _ _ 3 0); [|apply scaled_todo]. intros i b' b Hi H. apply Hm; [lia|exact H]. }
    destruct style; try congruence; apply Go; intros i b' b Hi H.
    - eapply both_bind; [apply norm_step; [lia|exact H]|]. intros c' c Hc. now apply after_norm.
    - eapply both_bind; [apply norm_step; [lia|exact H]|]. intros c' c Hc. now apply after_norm.
    - eapply both_bind; [apply norm_step; [lia|exact H]|]. intros c' c Hc. now apply after_norm.
    - apply norm_step; [lia|exact H].
  Qed.

  (** *** Output *)
  Lemma out_start b : times s (done 0) b b.
  Proof. apply times_refl. intro k. unfold done. bools. Qed.
  Lemma out_end st r' r : (3 <= st)%nat -> both (times s (done 3)) r' r ->
    (let* q := r' in copyExtra st q) = (let* o := (let* q := r in copyExtra st q) in Ok (scaledColour s o)).
  Proof.
    intros Hs H. apply both_eq. rewrite bind_assoc. eapply both_bind; [exact H|]. intros x' x Hx. rewrite <- (bind_ret (copyExtra st x')).
    eapply both_bind; [apply (copyExtra_both s (done 3)); [|exact Hs|exact Hx]; intros k Hk; unfold done; bools|].
    intros y' y Hy. cbn. now apply scaled_done.
  Qed.
  Lemma out_gamma f dIn ga of st px : (3 <= st)%nat ->
    gammaPixel (Some f) dIn d' ga of st px = let* o := gammaPixel (Some f) dIn d ga of st px in Ok (scaledColour s o).
  Proof.
    intro Hs. unfold gammaPixel. apply out_end; [exact Hs|].
    apply (for_each_both (fun i => times s (done i)) _ _ 3 0); [|apply out_start]. intros i b' b Hi H.
    eapply both_bind; [now apply before_denorm|]. intros c' c Hc. eapply both_bind; [now apply before_denorm|]. intros e' e He. now apply denorm_step.
  Qed.
  Lemma out_logChannel f dIn i b' b : times s (done i) b' b -> both (times s (done (S i))) (logChannel f dIn d' i b') (logChannel f dIn d i b).
  Proof.
    intro H. unfold logChannel. eapply both_bind; [now apply before_denorm|]. intros c' c Hc.
    eapply both_bind; [now apply before_denorm|]. intros e' e He. now apply denorm_step.
  Qed.
  Lemma out_log style dIn cs st px : (3 <= st)%nat -> style <> LOther ->
    logPixel style dIn d' cs st px = let* o := logPixel style dIn d cs st px in Ok (scaledColour s o).
  Proof.
    intros Hs Ho. unfold logPixel. apply out_end; [exact Hs|].
    assert (Pl : forall f, both (times s (done 3)) (for_each (seq 0 3) (fun i px => logChannel f dIn d' i px) px)
                                (for_each (seq 0 3) (fun i px => logChannel f dIn d i px) px)).
    { intro f. apply (for_each_both (fun i => times s (done i)) _ _ 3 0); [|apply out_start]. intros i b' b Hi H. now apply out_logChannel. }
    assert (Ci : forall f : lchan R -> R -> R -> R -> R, both (times s (done 3))
      (for_each (seq 0 3) (fun i px => let* c := getn cs i in let* (black, gain) := logBlackGain c in logChannel (f c black gain) dIn d' i px) px)
      (for_each (seq 0 3) (fun i px => let* c := getn cs i in let* (black, gain) := logBlackGain c in logChannel (f c black gain) dIn d i px) px)).
    { intro f. apply (for_each_both (fun i => times s (done i)) _ _ 3 0); [|apply out_start]. intros i b' b Hi H.
      eapply both_bind; [apply both_refl|]. intros c' c ->. eapply both_bind; [apply both_refl|]. intros bg' bg ->. destruct bg as [black gain].
      now apply out_logChannel. }
    destruct style; try congruence; (apply Pl || apply Ci).
  Qed.
  Lemma out_cdl style dIn sl of po sat st px : (3 <= st)%nat -> style <> CdlOther ->
    cdlPixel style dIn d' sl of po sat st px = let* o := cdlPixel style dIn d sl of po sat st px in Ok (scaledColour s o).
  Proof.
    intros Hs Ho. unfold cdlPixel. apply out_end; [exact Hs|].
    destruct style; try congruence; (eapply both_bind; [apply both_refl|]); intros x' x ->; (eapply both_bind; [apply both_refl|]); intros l' l ->;
      (apply (for_each_both (fun i => times s (done i)) _ _ 3 0); [|apply out_start]); intros i b' b Hi H;
      repeat first [now apply denorm_step | (eapply both_bind; [now apply before_denorm|]); intros ? ? ?].
  Qed.
End Exact.

Lemma scaled_at st s values k : nth_error (scaledColours st s values) k = option_map (fun x => if Nat.ltb (k mod st) 3 then (s * x)%R else x) (nth_error values k).
Proof. unfold scaledColours. apply indexed_at. Qed.
Lemma scaled_length st s values : List.length (scaledColours st s values) = List.length values.
Proof. apply indexed_length. Qed.

Lemma scaled_pixels st s values : st <> 0 -> pixels st (scaledColours st s values) = map (scaledColour s) (pixels st values) /\
  List.length (leftover st (scaledColours st s values)) = List.length (leftover st values).
Proof.
  intro Hs. split; [|rewrite !leftover_length, scaled_length; reflexivity].
  unfold pixels. rewrite scaled_length, map_map. apply map_ext. intro p. apply nth_error_ext. intro k.
  unfold scaledColour. rewrite indexed_at. destruct (Nat.lt_ge_cases k ((p + 1) * st - p * st)) as [Hk|Hk].
  2:{ rewrite !(proj2 (nth_error_None _ _)); [reflexivity| |]; unfold slice; rewrite firstn_length; lia. }
  rewrite !slice_nth by lia. rewrite scaled_at. replace ((p * st + k) mod st) with k; [reflexivity|]. rewrite Nat.add_comm, Nat.mod_add by exact Hs. symmetry. apply Nat.mod_small. nia.
Qed.

Lemma scaled_app st s px rest : st <> 0 -> List.length px = st -> scaledColours st s (px ++ rest) = scaledColour s px ++ scaledColours st s rest.
Proof.
  intros Hs Hl. apply nth_error_ext. intro k. rewrite scaled_at. destruct (Nat.lt_ge_cases k st) as [Hk|Hk].
  - rewrite !nth_error_app1 by (unfold scaledColour; rewrite ?indexed_length; lia). unfold scaledColour. rewrite indexed_at, Nat.mod_small by lia. reflexivity.
  - rewrite !nth_error_app2 by (unfold scaledColour; rewrite ?indexed_length; lia). unfold scaledColour. rewrite indexed_length, scaled_at, Hl.
    replace (k mod st) with ((k - st) mod st); [reflexivity|]. rewrite <- (Nat.mod_add (k - st) 1 st) by exact Hs. f_equal. lia.
Qed.
Lemma scaled_zeros st s m : scaledColours st s (repeat 0%R m) = repeat 0%R m.
Proof.
  apply nth_error_ext. intro k. rewrite scaled_at. destruct (nth_error (repeat 0%R m) k) as [x|] eqn:E; [|reflexivity]. cbn [option_map].
  apply nth_error_In, repeat_spec in E. subst x. destruct (Nat.ltb (k mod st) 3); f_equal. lra.
Qed.
Lemma scaled_concat st s pxs m : st <> 0 -> Forall (fun px => List.length px = st) pxs ->
  scaledColours st s (List.concat pxs ++ repeat 0%R m) = List.concat (map (scaledColour s) pxs) ++ repeat 0%R m.
Proof.
  intros Hs. induction 1 as [|px pxs Hp _ IH]; [apply scaled_zeros|]. cbn [List.concat map]. rewrite <- !app_assoc. rewrite scaled_app by assumption. now rewrite IH.
Qed.

(** ** Nodes *)
Definition setIn (h : header R) (d : aval) : header R := hSetAttr h "inBitDepth" d.
Definition setOut (h : header R) (d : aval) : header R := hSetAttr h "outBitDepth" d.

Lemma pixelwise_scaled_in st s f' f b values : st <> 0 -> (forall px, List.length px = st -> f' (scaledColour s px) = f px) ->
  outcome (pixelwise f' b st (scaledColours st s values)) = outcome (pixelwise f b st values).
Proof.
  intros Hs Hf. destruct (scaled_pixels st s values Hs) as [E1 E2]. unfold pixelwise. rewrite E1.
  assert (M : mapM f' (map (scaledColour s) (pixels st values)) = mapM f (pixels st values)).
  { pose proof (pixels_length st values Hs) as F. revert F. generalize (pixels st values) as all. intros all F. induction F as [|px pxs Hp _ IH]; [reflexivity|]. cbn [map mapM]. rewrite Hf by assumption. now rewrite IH. }
  rewrite M. destruct (mapM f (pixels st values)); cbn; [now rewrite E2|reflexivity].
Qed.

Lemma pixelwise_scaled_out st s f' f b values : st <> 0 -> lenpres st f ->
  (forall px, List.length px = st -> f' px = let* o := f px in Ok (scaledColour s o)) ->
  outcome (pixelwise f' b st values) = let* o := outcome (pixelwise f b st values) in Ok (scaledColours st s o).
Proof.
  intros Hs Hl Hf. unfold pixelwise.
  assert (M : mapM f' (pixels st values) = let* outs := mapM f (pixels st values) in Ok (map (scaledColour s) outs)).
  { pose proof (pixels_length st values Hs) as F. revert F. generalize (pixels st values) as all. intros all F. induction F as [|px pxs Hp _ IH]; [reflexivity|]. cbn [mapM]. rewrite Hf, IH, !bind_assoc by assumption.
    apply bind_ext. intros o _. cbn [bind]. rewrite !bind_assoc. apply bind_ext. intros os _. reflexivity. }
  rewrite M. destruct (mapM f (pixels st values)) as [outs|] eqn:E; cbn; [|reflexivity].
  f_equal. symmetry. apply scaled_concat; [exact Hs|]. eapply mapM_Forall; [exact Hl| |exact E]. now apply pixels_length.
Qed.

Lemma known_gamma ps s : knownStyle (BGamma ps : body R) s -> exists f, gammaFun (T := R) s = Some f.
Proof. cbn. intros [<-|[<-|[<-|[<-|[]]]]]; eexists; reflexivity. Qed.
Lemma known_log ps s : knownStyle (BLog ps : body R) s -> logStyleOf s <> LOther.
Proof. cbn. intros [<-|[<-|[<-|[<-|[<-|[<-|[]]]]]]]; discriminate. Qed.
Lemma known_cdl s : In s knownCDL -> cdlStyleOf (AStr s) <> CdlOther.
Proof. cbn. intros [<-|[<-|[<-|[<-|[<-|[<-|[<-|[<-|[]]]]]]]]]; discriminate. Qed.

Lemma node_scaled_in c h b d d' values st : (3 <= st)%nat -> knownCurve h b \/ knownLUT h b -> dget (h_attrs h) "inBitDepth" = Some d ->
  outcome (nodeProcess c (Node (setIn h d') b) (scaledColours st (depthRatio d d') values) st) = outcome (nodeProcess c (Node h b) values st).
Proof.
  intros Hs K D. assert (Hs0 : st <> 0) by lia. assert (De : dgetE (h_attrs h) "inBitDepth" = Ok d) by (unfold dgetE; now rewrite D).
  assert (De' : dgetE (h_attrs (setIn h d')) "inBitDepth" = Ok d') by apply dgetE_same.
  assert (Do : dgetE (h_attrs (setIn h d')) "outBitDepth" = dgetE (h_attrs h) "outBitDepth") by (apply dgetE_other; discriminate).
  assert (Da : forall k, k <> "inBitDepth" -> dget (h_attrs (setIn h d')) k = dget (h_attrs h) k) by (intros; now apply dget_dset_other).
  assert (Cdl : forall v, (exists s, dget (h_attrs h) "style" = Some (AStr s) /\ In s knownCDL) ->
    outcome (cdlProcess c (setIn h d') v (scaledColours st (depthRatio d d') values) st) = outcome (cdlProcess c h v values st)).
  { intros v (s & Es & Is). rewrite !cdl_form by exact Hs0. rewrite De, De', Do, Da, Es by discriminate. replace (Nat.ltb st 3) with false by (symmetry; apply Nat.ltb_ge; lia).
    cbn [bind]. destruct (dgetE (h_attrs h) "outBitDepth"); [|reflexivity]. cbn [bind]. cbv zeta.
    destruct (negb (autodesk_on c) && cdlAutodeskStyle (AStr s)); [reflexivity|].
    apply pixelwise_scaled_in; [exact Hs0|]. intros px Hp. apply in_cdl. now apply known_cdl. }
  destruct K as [K|[Im K]]; destruct b; try contradiction; cbn [nodeProcess].
  - now apply Cdl.
  - now apply Cdl.
  - destruct K as (s & Es & Ks). rewrite !gamma_form by exact Hs0. rewrite De, De', Do, Da, Es by discriminate. cbn [bind].
    destruct (dgetE (h_attrs h) "outBitDepth"); [|reflexivity]. cbn [bind]. destruct (gammaParams _) as [[ga of]|]; [|reflexivity]. cbn [bind].
    destruct (known_gamma _ _ Ks) as [f ->]. apply pixelwise_scaled_in; [exact Hs0|]. intros px Hp. apply in_gamma.
  - destruct K as (s & Es & Ks). rewrite !log_form by exact Hs0. rewrite De, De', Do, Da, Es by discriminate. cbn [bind].
    destruct (dgetE (h_attrs h) "outBitDepth"); [|reflexivity]. cbn [bind]. destruct (logParams _) as [cs|]; [|reflexivity]. cbn [bind].
    apply pixelwise_scaled_in; [exact Hs0|]. intros px Hp. apply in_log. now apply (known_log _ _ Ks).
  - rewrite !lut1d_form by exact Hs0. rewrite De, De', Do, Da by discriminate. cbn [bind].
    destruct (dgetE (h_attrs h) "outBitDepth"); [|reflexivity]. cbn [bind]. unfold setIn at 1 2. cbn [hSetAttr h_elems]. rewrite Im.
    destruct (lastArray (h_elems h)) as [arr|]; [|reflexivity]. replace (flagSet (setIn h d') "halfDomain") with (flagSet h "halfDomain") by (symmetry; apply flag_other; discriminate).
    apply pixelwise_scaled_in; [exact Hs0|]. intros px Hp. apply in_lut1d. exact Hs.
  - destruct K as (s & Es & Ks). rewrite !lut3d_form by exact Hs0. rewrite De, De', Do, Da, Es by discriminate. cbn [bind].
    destruct (dgetE (h_attrs h) "outBitDepth"); [|reflexivity]. cbn [bind]. unfold setIn at 1 2. cbn [hSetAttr h_elems]. rewrite Im.
    destruct (lastArray (h_elems h)) as [arr|]; [|reflexivity].
    apply pixelwise_scaled_in; [exact Hs0|]. intros px Hp. apply in_lut3d; [lia|]. cbn in Ks. destruct Ks as [<-|[<-|[]]]; auto.
Qed.

Theorem input_scaled c a v e h b rest values st d d' :
  (3 <= st)%nat -> ~ skipped c (Node h b) -> knownCurve h b \/ knownLUT h b -> dget (h_attrs h) "inBitDepth" = Some d ->
  outcome (listProcess c (listSetInBitDepth (PList a v e (Node h b :: rest)) d') (scaledColours st (depthRatio d d') values) st) =
  outcome (listProcess c (PList a v e (Node h b :: rest)) values st).
Proof.
  intros Hs Sk K D. rewrite !list_out. cbn [listSetInBitDepth procs_of chainOut]. rewrite skips_set by discriminate.
  rewrite (skips_false _ _ Sk). rewrite !(map_ext nf32 (fun x : R => x)) by reflexivity. rewrite !map_id.
  pose proof (node_scaled_in c h b d d' values st Hs K D) as H. rewrite !outcome_bind in H. cbn [setAttribute].
  change (hSetAttr h "inBitDepth" d') with (setIn h d'). rewrite H. apply bind_ext. intros o _.
  destruct rest as [|m rest]; [reflexivity|]. cbn [chainOut]. destruct (skips (autodesk_on c) m); [|reflexivity].
  unfold bypassOut. replace (getOutBitDepth (Node (setIn h d') b)) with (getOutBitDepth (Node h b)); [reflexivity|]. symmetry. apply (set_in_out (Node h b)).
Qed.

Lemma node_scaled_out c h b d d' values st : (3 <= st)%nat -> knownCurve h b -> dget (h_attrs h) "outBitDepth" = Some d ->
  outcome (nodeProcess c (Node (setOut h d') b) values st) = let* o := outcome (nodeProcess c (Node h b) values st) in Ok (scaledColours st (depthRatio d d') o).
Proof.
  intros Hs K D. assert (Hs0 : st <> 0) by lia. assert (De : dgetE (h_attrs h) "outBitDepth" = Ok d) by (unfold dgetE; now rewrite D).
  assert (De' : dgetE (h_attrs (setOut h d')) "outBitDepth" = Ok d') by apply dgetE_same.
  assert (Do : dgetE (h_attrs (setOut h d')) "inBitDepth" = dgetE (h_attrs h) "inBitDepth") by (apply dgetE_other; discriminate).
  assert (Da : forall k, k <> "outBitDepth" -> dget (h_attrs (setOut h d')) k = dget (h_attrs h) k) by (intros; now apply dget_dset_other).
  assert (Cdl : forall v, (exists s, dget (h_attrs h) "style" = Some (AStr s) /\ In s knownCDL) ->
    outcome (cdlProcess c (setOut h d') v values st) = let* o := outcome (cdlProcess c h v values st) in Ok (scaledColours st (depthRatio d d') o)).
  { intros v (s & Es & Is). rewrite !cdl_form by exact Hs0. rewrite De, De', Do, Da, Es by discriminate. replace (Nat.ltb st 3) with false by (symmetry; apply Nat.ltb_ge; lia).
    destruct (dgetE (h_attrs h) "inBitDepth"); [|reflexivity]. cbn [bind]. cbv zeta.
    destruct (negb (autodesk_on c) && cdlAutodeskStyle (AStr s)); [reflexivity|].
    apply pixelwise_scaled_out; [exact Hs0|apply cdl_len|]. intros px Hp. apply out_cdl; [exact Hs|]. now apply known_cdl. }
  destruct b; try contradiction; cbn [nodeProcess].
  - now apply Cdl.
  - now apply Cdl.
  - destruct K as (s & Es & Ks). rewrite !gamma_form by exact Hs0. rewrite De, De', Do, Da, Es by discriminate.
    destruct (dgetE (h_attrs h) "inBitDepth"); [|reflexivity]. cbn [bind]. destruct (gammaParams _) as [[ga of]|]; [|reflexivity]. cbn [bind].
    destruct (known_gamma _ _ Ks) as [f ->]. apply pixelwise_scaled_out; [exact Hs0|apply gamma_len|]. intros px Hp. now apply out_gamma.
  - destruct K as (s & Es & Ks). rewrite !log_form by exact Hs0. rewrite De, De', Do, Da, Es by discriminate.
    destruct (dgetE (h_attrs h) "inBitDepth"); [|reflexivity]. cbn [bind]. destruct (logParams _) as [cs|]; [|reflexivity]. cbn [bind].
    apply pixelwise_scaled_out; [exact Hs0|apply log_len|]. intros px Hp. apply out_log; [exact Hs|]. now apply (known_log _ _ Ks).
Qed.

Theorem output_scaled c a v e h b front values st d d' :
  (3 <= st)%nat -> ~ skipped c (Node h b) -> knownCurve h b -> dget (h_attrs h) "outBitDepth" = Some d ->
  outcome (listProcess c (listSetOutBitDepth (PList a v e (front ++ [Node h b])) d') values st) =
  let* o := outcome (listProcess c (PList a v e (front ++ [Node h b])) values st) in Ok (scaledColours st (depthRatio d d') o).
Proof.
  intros Hs Sk K D. rewrite !list_out. cbn [listSetOutBitDepth procs_of]. rewrite last_attr. cbn [setAttribute].
  change (hSetAttr h "outBitDepth" d') with (setOut h d'). generalize (map nf32 values) as w. generalize (@None (node R)) as prev.
  induction front as [|m front IH]; intros prev w.
  - cbn [app chainOut]. replace (skips (autodesk_on c) (Node (setOut h d') b)) with (skips (autodesk_on c) (Node h b))
      by (symmetry; apply (skips_set _ (Node h b)); discriminate).
    rewrite (skips_false _ _ Sk). pose proof (node_scaled_out c h b d d' w st Hs K D) as H. rewrite !outcome_bind in H. rewrite H.
    destruct (nodeProcess c (Node h b) w st); reflexivity.
  - cbn [app chainOut]. assert (B : bypassOut prev (hd_error (front ++ [Node (setOut h d') b])) w = bypassOut prev (hd_error (front ++ [Node h b])) w).
    { destruct front as [|q front]; [|reflexivity]. cbn [app hd_error]. unfold bypassOut, getInBitDepth, getAttribute, setOut. cbn [nheader hSetAttr h_attrs].
      destruct prev; [|reflexivity]. now rewrite dget_dset_other by discriminate. }
    rewrite B, bind_assoc. apply bind_ext. intros o _. apply IH.
Qed.

(** ** Range *)
Definition withIn (r : rangeData) (d : aval) : rangeData :=
  {| r_in := d; r_out := r_out r; r_clamps := r_clamps r; r_default := r_default r;
     r_minIn := r_minIn r; r_maxIn := r_maxIn r; r_minOut := r_minOut r; r_maxOut := r_maxOut r |}.
Definition withOut (r : rangeData) (d : aval) : rangeData :=
  {| r_in := r_in r; r_out := d; r_clamps := r_clamps r; r_default := r_default r;
     r_minIn := r_minIn r; r_maxIn := r_maxIn r; r_minOut := r_minOut r; r_maxOut := r_maxOut r |}.
Lemma range_in h r d : isRange h r -> isRange (setIn h d) (withIn r d).
Proof.
  unfold isRange. cbn [setIn hSetAttr h_attrs h_vals withIn r_in r_out r_clamps r_default r_minIn r_maxIn r_minOut r_maxOut].
  rewrite dget_dset_same, !dget_dset_other by discriminate. tauto.
Qed.
Lemma range_out h r d : isRange h r -> isRange (setOut h d) (withOut r d).
Proof.
  unfold isRange. cbn [setOut hSetAttr h_attrs h_vals withOut r_in r_out r_clamps r_default r_minIn r_maxIn r_minOut r_maxOut].
  rewrite dget_dset_same, !dget_dset_other by discriminate. tauto.
Qed.
Lemma range_same c h h' r r' minIn maxIn minOut maxOut st values :
  isRange h r -> isRange h' r' -> r_clamps r' = r_clamps r ->
  r_minIn r = Some minIn -> r_maxIn r = Some maxIn -> r_minOut r = Some minOut -> r_maxOut r = Some maxOut ->
  r_minIn r' = Some minIn -> r_maxIn r' = Some maxIn -> r_minOut r' = Some minOut -> r_maxOut r' = Some maxOut ->
  (minIn < maxIn)%R -> (minOut <= maxOut)%R ->
  outcome (nodeProcess c (Node h' BRange) values st) = outcome (nodeProcess c (Node h BRange) values st).
Proof.
  intros I I' Cl A1 A2 A3 A4 B1 B2 B3 B4 Hi Ho. destruct (r_clamps r) eqn:E.
  - destruct (range_clamped c h r minIn maxIn minOut maxOut I A1 A2 A3 A4 E Hi Ho) as (f & F & _ & _ & F1 & F2 & F3 & _).
    destruct (range_clamped c h' r' minIn maxIn minOut maxOut I' B1 B2 B3 B4 Cl Hi Ho) as (g & G & _ & _ & G1 & G2 & G3 & _).
    rewrite (F st values), (G st values). f_equal. apply map_ext. intro x.
    destruct (Rle_or_lt x minIn) as [H1|H1]; [now rewrite F2, G2|]. destruct (Rle_or_lt maxIn x) as [H2|H2]; [now rewrite F3, G3|].
    rewrite F1, G1 by lra. reflexivity.
  - rewrite (range_affine c h r minIn maxIn minOut maxOut I A1 A2 A3 A4 E ltac:(lra) st values).
    rewrite (range_affine c h' r' minIn maxIn minOut maxOut I' B1 B2 B3 B4 Cl ltac:(lra) st values). reflexivity.
Qed.

Theorem range_depths c a v e h r minIn maxIn minOut maxOut d st values :
  isRange h r -> r_minIn r = Some minIn -> r_maxIn r = Some maxIn -> r_minOut r = Some minOut -> r_maxOut r = Some maxOut ->
  (minIn < maxIn)%R -> (minOut <= maxOut)%R ->
  (forall rest, outcome (listProcess c (listSetInBitDepth (PList a v e (Node h BRange :: rest)) d) values st) =
                outcome (listProcess c (PList a v e (Node h BRange :: rest)) values st)) /\
  (forall front, outcome (listProcess c (listSetOutBitDepth (PList a v e (front ++ [Node h BRange])) d) values st) =
                 outcome (listProcess c (PList a v e (front ++ [Node h BRange])) values st)).
Proof.
  intros I A1 A2 A3 A4 Hi Ho. split.
  - intro rest. cbn [listSetInBitDepth]. apply first_same; [apply skips_set; discriminate|apply set_in_out|]. intros _ w.
    apply (range_same c h (setIn h d) r (withIn r d) minIn maxIn minOut maxOut); auto. now apply range_in.
  - intro front. cbn [listSetOutBitDepth]. rewrite last_attr. apply last_same; [apply skips_set; discriminate| |].
    { unfold getInBitDepth, getAttribute. cbn. now rewrite dget_dset_other by discriminate. }
    intros _ w. apply (range_same c h (setOut h d) r (withOut r d) minIn maxIn minOut maxOut); auto. now apply range_out.
Qed.
