(** Proofs about sampled and inverted LUTs, part 1: the default stride, lists of
    nodes acting channel by channel, and the building blocks. *)
From Coq Require Import Lra.
From Verif Require Export PSample PBypass PLog SpecSampling.

(* ------------------------------------------------------------------ *)
(** * Stride 0 is one pixel *)
Section Stride0.
  Context {T : Type} {N : Num T}.

  Lemma chain_stride0 hb run prev ps k (s : pout T) :
    Forall (fun n => (forall v, List.length v = k -> run n v 0 = run n v k) /\
                     forall v st o, run n v st = Ok o -> List.length (po_out o) = List.length v) ps ->
    List.length (po_out s) = k -> chain hb run prev ps 0 s = chain hb run prev ps k s.
  Proof.
    revert prev s. induction ps as [|n rest IH]; intros prev s HF Hl; [reflexivity|].
    inversion HF as [|? ? [Hn Hk] Hr]; subst. cbn [chain].
    destruct (notBypassed n || negb hb) eqn:En.
    - rewrite (Hn (po_out s)) by reflexivity.
      destruct (run n (po_out s) (List.length (po_out s))) as [o|e] eqn:Eo; [|reflexivity]. cbn [bind].
      apply IH; [assumption|]. cbn [stepOut po_out]. eapply Hk; eauto.
    - destruct (bypassStep prev (hd_error rest) s) as [s1|e] eqn:Eb; [|reflexivity]. cbn [bind].
      apply IH; [assumption|].
      unfold bypassStep in Eb. destruct prev as [p|]; [|now apply Ok_inj in Eb; subst].
      destruct (hd_error rest) as [q|]; [|now apply Ok_inj in Eb; subst].
      destruct (negb (aval_eqb (getOutBitDepth p) (getInBitDepth q))); [|now apply Ok_inj in Eb; subst].
      apply bind_ok in Eb. destruct Eb as [o [Eo Eb]]. apply Ok_inj in Eb. subst s1. cbn [stepOut po_out].
      apply rangeProcess_length in Eo. tauto.
  Qed.

  Lemma node_stride0 c (n : node T) : forall values, values <> [] ->
    nodeProcess c n values 0 = nodeProcess c n values (List.length values).
  Proof.
    induction n as [h b HG HR] using node_deep_ind. intros values Hv.
    destruct b as [| | | |v|v|ps|ps|p|w [[pa pv pe pps]|]|ps]; try (apply leaf_stride0; [exact Hv|exact I]).
    - cbn [nodeProcess]. specialize (HR _ _ _ _ _ eq_refl).
      f_equal. apply chain_stride0; [|cbn; now rewrite map_length].
      eapply Forall_impl; [|exact HR]. intros m Hm. split.
      + intros v' El. rewrite <- El. apply Hm. intro E. subst v'. destruct values; [congruence|discriminate].
      + intros v' st o E. apply node_length in E. tauto.
    - cbn [nodeProcess]. specialize (HG _ eq_refl).
      apply chain_stride0; [|reflexivity].
      eapply Forall_impl; [|exact HG]. intros m Hm. split.
      + intros v' El. rewrite <- El. apply Hm. intro E. subst v'. destruct values; [congruence|discriminate].
      + intros v' st o E. apply node_length in E. tauto.
  Qed.

  Theorem list_stride0 c (l : plist T) values : values <> [] ->
    listProcess c l values 0 = listProcess c l values (List.length values).
  Proof.
    intro Hv. unfold listProcess. apply chain_stride0; [|cbn; now rewrite map_length].
    apply Forall_forall. intros m _. split.
    - intros v' El. rewrite <- El. apply node_stride0. intro E. subst v'. destruct values; [congruence|discriminate].
    - intros v' st o E. apply node_length in E. tauto.
  Qed.

  Lemma runList_outcome c (l : plist T) px : List.length px = 3 -> runList c l px = outcome (listProcess c l px 3).
  Proof.
    intro H. unfold runList. rewrite list_stride0 by (destruct px; [discriminate|discriminate]). rewrite H. reflexivity.
  Qed.

  Lemma runList_length c (l : plist T) px o : runList c l px = Ok o -> List.length o = List.length px.
  Proof. intro H. unfold runList in H. apply bind_ok in H. destruct H as [p [H E]]. apply Ok_inj in E. subst.
    apply list_length in H. tauto. Qed.
End Stride0.

(* ------------------------------------------------------------------ *)
(** * Channel by channel *)
Local Open Scope R_scope.

Lemma nth_error_ext {A} (l m : list A) : (forall i, nth_error l i = nth_error m i) -> l = m.
Proof.
  revert m. induction l as [|x t IH]; intros [|y u] H; [reflexivity|specialize (H 0%nat); discriminate|specialize (H 0%nat); discriminate|].
  pose proof (H 0%nat) as H0. cbn in H0. injection H0 as ->. f_equal. apply IH. intro i. apply (H (S i)).
Qed.

Lemma rgb_length {T} (f : nat -> T -> T) v : List.length (rgb f v) = List.length v.
Proof. apply indexed_length. Qed.

Lemma rgb_compose {T} (f g : nat -> T -> T) v : rgb g (rgb f v) = rgb (fun ch x => g ch (f ch x)) v.
Proof.
  unfold rgb. apply nth_error_ext. intro i.
  destruct (nth_error v i) as [x|] eqn:E.
  - rewrite (indexed_nth _ _ _ _ (indexed_nth (fun i x => f (i mod 3)%nat x) _ _ _ E)).
    rewrite (indexed_nth _ _ _ _ E). reflexivity.
  - apply nth_error_None in E. rewrite !(proj2 (nth_error_None _ _)); rewrite ?indexed_length; auto.
Qed.

Lemma rgb_ext {T} (f g : nat -> T -> T) v :
  (forall ch x, (ch < 3)%nat -> In x v -> f ch x = g ch x) -> rgb f v = rgb g v.
Proof.
  intro H. unfold rgb. apply nth_error_ext. intro i.
  destruct (nth_error v i) as [x|] eqn:E.
  - rewrite !(indexed_nth _ _ _ _ E). f_equal. apply H; [apply Nat.mod_upper_bound; lia|]. eapply nth_error_In; eauto.
  - apply nth_error_None in E. rewrite !(proj2 (nth_error_None _ _)); rewrite ?indexed_length; auto.
Qed.

Lemma rgb_same {T} (v : list T) : rgb (fun _ x => x) v = v.
Proof.
  unfold rgb. apply nth_error_ext. intro i.
  destruct (nth_error v i) as [x|] eqn:E.
  - now rewrite (indexed_nth _ _ _ _ E).
  - apply nth_error_None in E. rewrite !(proj2 (nth_error_None _ _)); rewrite ?indexed_length; auto.
Qed.

Lemma rgb_map {T} (f : T -> T) v : rgb (fun _ => f) v = map f v.
Proof.
  unfold rgb. apply nth_error_ext. intro i. rewrite nth_error_map.
  destruct (nth_error v i) as [x|] eqn:E.
  - now rewrite (indexed_nth _ _ _ _ E).
  - apply nth_error_None in E. rewrite !(proj2 (nth_error_None _ _)); rewrite ?indexed_length; auto.
Qed.

Lemma perChannel_rgb (f : nat -> R -> R) v : (List.length v mod 3 = 0)%nat -> perChannel 3 f v = rgb f v.
Proof.
  intro Hm. assert (El : (List.length v / 3 * 3 = List.length v)%nat) by (pose proof (Nat.div_mod (List.length v) 3 ltac:(lia)); lia).
  unfold perChannel, perColour, rgb. apply nth_error_ext. intro i.
  destruct (nth_error v i) as [x|] eqn:E.
  - rewrite !(indexed_nth _ _ _ _ E). f_equal.
    assert (Hi : (i < List.length v)%nat) by (apply nth_error_Some; congruence).
    rewrite (proj2 (Nat.ltb_lt _ _)) by lia.
    assert (Hn : nth i v 0 = x) by (now apply nth_error_nth).
    pose proof (Nat.div_mod i 3 ltac:(lia)) as Hd. pose proof (Nat.mod_upper_bound i 3 ltac:(lia)) as Hb.
    set (p := (i / 3)%nat) in *. set (r := (i mod 3)%nat) in *. clearbody p r.
    change (@n0 R realNum) with 0.
    destruct r as [|[|[|r]]]; try lia; f_equal; subst i; rewrite <- Hn; f_equal; lia.
  - apply nth_error_None in E. rewrite !(proj2 (nth_error_None _ _)); rewrite ?indexed_length; auto.
Qed.

Definition nodeMaps (c : Z) (n : node R) (f : nat -> R -> R) : Prop :=
  forall values, (List.length values mod 3 = 0)%nat -> outcome (nodeProcess c n values 3) = Ok (rgb f values).
Definition chainMaps (c : Z) (ps : list (node R)) (f : nat -> R -> R) : Prop :=
  forall prev values, (List.length values mod 3 = 0)%nat ->
    chainOut (autodesk_on c) (nodeProcess c) prev ps 3 values = Ok (rgb f values).

Lemma channel_maps c n f : actsPerChannel c n f -> nodeMaps c n f.
Proof. intros H v Hv. rewrite H by lia. now rewrite perChannel_rgb. Qed.
Lemma sample_maps c n f : actsPerSample c n f -> nodeMaps c n (fun _ => f).
Proof. intros H v Hv. rewrite H. now rewrite rgb_map. Qed.

Lemma chain_nil c : chainMaps c [] (fun _ x => x).
Proof. intros prev v _. cbn. now rewrite rgb_same. Qed.
Lemma chain_cons c n ps f g : notBypassed n = true -> nodeMaps c n f -> chainMaps c ps g ->
  chainMaps c (n :: ps) (fun ch x => g ch (f ch x)).
Proof.
  intros Hb Hn Hp prev v Hv. rewrite chainOut_cons. unfold skips. rewrite Hb. cbn [orb negb].
  destruct (outcome_ok _ _ (Hn v Hv)) as [o [Eo El]]. rewrite Eo. cbn [bind]. rewrite El.
  rewrite Hp by now rewrite rgb_length. now rewrite rgb_compose.
Qed.
Lemma chain_app c A B f g : Forall (fun n => notBypassed n = true) A -> chainMaps c A f -> chainMaps c B g ->
  chainMaps c (A ++ B) (fun ch x => g ch (f ch x)).
Proof.
  intros HA Hf Hg prev v Hv. rewrite chainOut_app.
  - rewrite Hf by assumption. cbn [bind]. rewrite Hg by now rewrite rgb_length. now rewrite rgb_compose.
  - right. destruct (rev A) as [|n r] eqn:E; [exact I|]. unfold skips.
    assert (Hin : In n A) by (apply in_rev; rewrite E; now left).
    rewrite Forall_forall in HA. now rewrite (HA n Hin).
Qed.

Lemma list_maps c l f : chainMaps c (procs_of l) f -> mapsRGB c l f.
Proof.
  intros H v Hv. rewrite list_outcome. change (map nf32 v) with (map (fun x : R => x) v). rewrite map_id. now apply H.
Qed.
