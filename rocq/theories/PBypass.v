(** Runs of bypassed nodes in exact arithmetic. *)
From Coq Require Import Lra.
From Verif Require Export PRange.
Local Open Scope R_scope.

Definition factor (dIn dOut : aval) (x : R) : R := x * (fullScale dOut / fullScale dIn).

Lemma plainRange_data (h : header R) dIn dOut :
  dget (h_attrs h) "inBitDepth" = Some dIn -> dget (h_attrs h) "outBitDepth" = Some dOut ->
  dget (h_attrs h) "style" = Some (AStr "noClamp") -> dget (h_attrs h) "defaultRange" = None -> h_vals h = [] ->
  isRange h {| r_in := dIn; r_out := dOut; r_clamps := false; r_default := false;
               r_minIn := None; r_maxIn := None; r_minOut := None; r_maxOut := None |}.
Proof.
  intros H1 H2 H3 H4 H5. unfold isRange. cbn. rewrite H1, H2, H3, H4, H5. repeat split; try congruence; try discriminate.
  intros [H|H]; discriminate.
Qed.

Lemma plainRange_acts c h dIn dOut :
  dget (h_attrs h) "inBitDepth" = Some dIn -> dget (h_attrs h) "outBitDepth" = Some dOut ->
  dget (h_attrs h) "style" = Some (AStr "noClamp") -> dget (h_attrs h) "defaultRange" = None -> h_vals h = [] ->
  actsPerSample c (Node h BRange) (factor dIn dOut).
Proof.
  intros. exact (range_no_pair c h _ (plainRange_data h dIn dOut H H0 H1 H2 H3) eq_refl (or_introl eq_refl) (or_introl eq_refl)).
Qed.

Theorem rescale_acts c dIn dOut : actsPerSample c (rescale dIn dOut) (factor dIn dOut).
Proof. apply plainRange_acts; reflexivity. Qed.

Lemma factor_self d x : factor d d x = x.
Proof. unfold factor. pose proof (fullScale_pos d). field. lra. Qed.
Lemma factor_trans a b c x : factor b c (factor a b x) = factor a c x.
Proof. unfold factor. pose proof (fullScale_pos a). pose proof (fullScale_pos b). field. split; lra. Qed.

Lemma aval_eqb_eq a b : aval_eqb a b = true -> a = b.
Proof.
  destruct a as [s|x|], b as [t|y|]; cbn; try discriminate; intro H.
  - apply String.eqb_eq in H. congruence.
  - apply Bool.eqb_prop in H. congruence.
  - reflexivity.
Qed.

Lemma bypassOut_R p q (v : list R) :
  bypassOut (Some p) (Some q) v = Ok (map (factor (getOutBitDepth p) (getInBitDepth q)) v).
Proof.
  unfold bypassOut. destruct (aval_eqb _ _) eqn:E; cbn [negb].
  - apply aval_eqb_eq in E. rewrite E. f_equal. rewrite <- (map_id v) at 1. apply map_ext. intro. now rewrite factor_self.
  - set (a := getOutBitDepth p) in *. set (b := getInBitDepth q) in *. clearbody a b.
    assert (H : outcome (nodeProcess 0%Z (Node (adapterHeader a b) BRange) v 1) = Ok (map (factor a b) v))
      by (apply plainRange_acts; reflexivity).
    cbn [nodeProcess] in H. destruct (rangeProcess (adapterHeader a b) v) as [o|e]; cbn [outcome bind] in *; [exact H|discriminate].
Qed.

Section Chain.
  Variables (hb : bool) (run : node R -> list R -> nat -> res (pout R)) (st : nat).

  Lemma chainOut_outEq prev prev' ps (v : list R) :
    getOutBitDepth prev = getOutBitDepth prev' ->
    chainOut hb run (Some prev) ps st v = chainOut hb run (Some prev') ps st v.
  Proof.
    intro H. destruct ps as [|n rest]; [reflexivity|]. cbn [chainOut].
    assert (E : bypassOut (Some prev) (hd_error rest) v = bypassOut (Some prev') (hd_error rest) v)
      by (unfold bypassOut; rewrite H; reflexivity).
    rewrite E. reflexivity.
  Qed.

  Lemma chainOut_prefix A X Y : hd_error X = hd_error Y ->
    (forall prev v, chainOut hb run prev X st v = chainOut hb run prev Y st v) ->
    forall prev v, chainOut hb run prev (A ++ X) st v = chainOut hb run prev (A ++ Y) st v.
  Proof.
    intros Hh H. induction A as [|n A IH]; intros prev v; [apply H|]. cbn [app chainOut].
    assert (E : hd_error (A ++ X) = hd_error (A ++ Y)) by (destruct A; [exact Hh|reflexivity]).
    rewrite E. apply bind_ext. intros w _. apply IH.
  Qed.

  Lemma agreeing_tail {T} (p : node T) ps : agreeing (p :: ps) -> agreeing ps.
  Proof. destruct ps as [|q t]; [intros; exact I|]. intros [_ H]. exact H. Qed.

  Lemma chainOut_cons prev n rest (v : list R) :
    chainOut hb run prev (n :: rest) st v =
    let* v' := if skips hb n then bypassOut prev (hd_error rest) v else let* o := run n v st in Ok (po_out o) in
    chainOut hb run (Some n) rest st v'.
  Proof. reflexivity. Qed.

  (** A run of skipped nodes after [p] up to [q]. *)
  Lemma skipRun bs : bs <> [] -> Forall (fun n => skips hb n = true) bs ->
    forall p q post v, agreeing (p :: bs ++ [q]) ->
    exists l, getOutBitDepth l = getInBitDepth q /\
    chainOut hb run (Some p) (bs ++ q :: post) st v =
    chainOut hb run (Some l) (q :: post) st (map (factor (getOutBitDepth p) (getInBitDepth q)) v).
  Proof.
    induction bs as [|b t IH]; intros Hne F p q post v Ha; [congruence|].
    inversion F as [|? ? Hb Ft]; subst. cbn [app]. rewrite chainOut_cons. rewrite Hb.
    destruct t as [|b2 t].
    - cbn [app hd_error]. rewrite bypassOut_R. cbn [bind]. exists b. split; [|reflexivity].
      cbn in Ha. exact (proj1 (proj2 Ha)).
    - change (hd_error ((b2 :: t) ++ q :: post)) with (Some b2). rewrite bypassOut_R. cbn [bind].
      destruct (IH ltac:(discriminate) Ft b q post (map (factor (getOutBitDepth p) (getInBitDepth b2)) v)) as [l [El E]].
      { apply agreeing_tail in Ha. exact Ha. }
      exists l. split; [exact El|]. rewrite E. f_equal. rewrite map_map. apply map_ext. intro x.
      assert (Eb : getOutBitDepth b = getInBitDepth b2) by (apply agreeing_tail in Ha; exact (proj1 Ha)).
      rewrite Eb. apply factor_trans.
  Qed.
End Chain.

Lemma skipped_run_chain hb c st A p bs q B prev (v : list R) :
  bs <> [] -> Forall (fun n => skips hb n = true) bs -> agreeing (p :: bs ++ [q]) ->
  chainOut hb (nodeProcess c) prev (A ++ p :: bs ++ q :: B) st v =
  chainOut hb (nodeProcess c) prev (A ++ p :: rescale (getOutBitDepth p) (getInBitDepth q) :: q :: B) st v.
Proof.
  intros Hne F Ha. apply chainOut_prefix; [reflexivity|]. clear prev v. intros prev v.
  cbn [chainOut].
  assert (E : bypassOut prev (hd_error (bs ++ q :: B)) v =
              bypassOut prev (hd_error (rescale (getOutBitDepth p) (getInBitDepth q) :: q :: B)) v).
  { destruct bs as [|b t]; [congruence|]. cbn in Ha. cbn [app hd_error]. unfold bypassOut.
    replace (getInBitDepth (rescale (getOutBitDepth p) (getInBitDepth q))) with (getOutBitDepth p) by reflexivity.
    rewrite (proj1 Ha). reflexivity. }
  rewrite E. apply bind_ext. intros w _. clear E.
  destruct (skipRun hb (nodeProcess c) st bs Hne F p q B w Ha) as [l [El E]]. rewrite E.
  assert (Es : skips hb (rescale (getOutBitDepth p) (getInBitDepth q)) = false) by (destruct hb; reflexivity).
  rewrite Es.
  pose proof (rescale_acts c (getOutBitDepth p) (getInBitDepth q) st w) as Hr. apply outcome_ok in Hr.
  destruct Hr as [o [Eo Ho]]. rewrite Eo. cbn [bind]. rewrite Ho.
  change (chainOut hb (nodeProcess c) (Some l) (q :: B) st (map (factor (getOutBitDepth p) (getInBitDepth q)) w) =
          chainOut hb (nodeProcess c) (Some (rescale (getOutBitDepth p) (getInBitDepth q))) (q :: B) st
            (map (factor (getOutBitDepth p) (getInBitDepth q)) w)).
  apply chainOut_outEq. exact El.
Qed.

Lemma hasBypass_skips {T} {N : Num T} (n : node T) : hasBypass n -> skips true n = true.
Proof.
  intros [v [E Hv]]. unfold skips, notBypassed, getAttribute. rewrite E. destruct v; try reflexivity. congruence.
Qed.

Lemma outcome_chain hb run prev (ps : list (node R)) st s :
  outcome (chain hb run prev ps st s) = chainOut hb run prev ps st (po_out s).
Proof. rewrite <- chain_out. destruct (chain _ _ _ _ _ _); reflexivity. Qed.

Theorem skipped_run c a v e A p bs q B values st :
  autodesk_on c = true -> bs <> [] -> Forall hasBypass bs -> agreeing (p :: bs ++ [q]) ->
  outcome (listProcess c (PList a v e (A ++ p :: bs ++ q :: B)) values st) =
  outcome (listProcess c (PList a v e (A ++ p :: rescale (getOutBitDepth p) (getInBitDepth q) :: q :: B)) values st).
Proof.
  intros Ha Hne F Hd. unfold listProcess. rewrite Ha, !outcome_chain. cbn [procs_of].
  apply skipped_run_chain; [assumption| |assumption]. eapply Forall_impl; [|exact F]. intros n. apply hasBypass_skips.
Qed.

Theorem skipped_run_group c h A p bs q B values st :
  bs <> [] -> Forall hasBypass bs -> agreeing (p :: bs ++ [q]) ->
  outcome (nodeProcess c (Node h (BGroup (A ++ p :: bs ++ q :: B))) values st) =
  outcome (nodeProcess c (Node h (BGroup (A ++ p :: rescale (getOutBitDepth p) (getInBitDepth q) :: q :: B))) values st).
Proof.
  intros Hne F Hd. cbn [nodeProcess]. rewrite !outcome_chain.
  apply skipped_run_chain; [assumption| |assumption]. eapply Forall_impl; [|exact F]. intros n. apply hasBypass_skips.
Qed.

Theorem rescale_linear c dIn dOut : actsPerSample c (rescale dIn dOut) (fun x => x / fullScale dIn * fullScale dOut).
Proof.
  intros st values. rewrite (rescale_acts c dIn dOut st values). f_equal. apply map_ext. intro x. unfold factor.
  pose proof (fullScale_pos dIn). field. lra.
Qed.
