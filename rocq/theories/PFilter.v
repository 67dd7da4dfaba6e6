From Verif Require Import SpecTools PBase PChain PStruct PNode PLattice PGrid.
Local Open Scope string_scope.
Local Open Scope list_scope.

Section Filter.
  Context {T : Type} {N : Num T}.

  (** ** Copying rows *)
  Lemma copyRow_ok index n (pvalue buf : list T) :
    n <= List.length pvalue -> index + n <= List.length buf ->
    copyRow index n pvalue buf = Ok (firstn index buf ++ map nf32 (firstn n pvalue) ++ skipn (index + n) buf).
  Proof.
    intros Hp Hb. unfold copyRow.
    assert (G : forall k, k <= n ->
      for_each (seq 0 k) (fun j buf => let* v := getn pvalue j in setn buf (index + j) (nf32 v)) buf =
      Ok (firstn index buf ++ map nf32 (firstn k pvalue) ++ skipn (index + k) buf)).
    { induction k as [|k IH]; intro Hk.
      - cbn [seq for_each firstn map app]. now rewrite Nat.add_0_r, firstn_skipn.
      - rewrite seq_S, for_each_app, IH by lia. cbn [bind for_each Nat.add].
        destruct (getn_lt pvalue k ltac:(lia)) as [v Hv]. rewrite Hv. cbn [bind].
        assert (El : List.length (firstn index buf ++ map nf32 (firstn k pvalue)) = index + k).
        { rewrite app_length, map_length, !firstn_length. lia. }
        rewrite app_assoc. set (A := firstn index buf ++ map nf32 (firstn k pvalue)) in *.
        rewrite setn_lt by (rewrite app_length, skipn_length; lia). cbn [bind].
        rewrite firstn_app, El, Nat.sub_diag, firstn_O, app_nil_r, firstn_all2 by lia.
        rewrite skipn_app, El, skipn_all2 by lia. cbn [app].
        replace (S (index + k) - (index + k)) with 1 by lia.
        assert (Es : skipn 1 (skipn (index + k) buf) = skipn (index + S k) buf).
        { rewrite skipn_skipn. f_equal. lia. }
        rewrite Es. unfold A. rewrite <- app_assoc. do 2 f_equal.
        assert (Ek : firstn (S k) pvalue = firstn k pvalue ++ [v]).
        { apply getn_some in Hv. clear - Hv. revert k Hv. induction pvalue as [|x t IH]; intros [|k] Hv; try discriminate.
          - injection Hv as ->. reflexivity.
          - cbn [firstn app]. f_equal. now apply IH. }
        rewrite Ek, map_app, <- app_assoc. reflexivity. }
    apply G. lia.
  Qed.

  Lemma copyRow_length index n (pvalue buf buf' : list T) : copyRow index n pvalue buf = Ok buf' -> List.length buf' = List.length buf.
  Proof.
    unfold copyRow. intro H. refine (for_each_inv (fun b => List.length b = List.length buf) _ _ _ _ _ eq_refl H).
    intros j b b' Hb E. apply bind_ok in E. destruct E as [v [_ E]]. apply setn_length in E. congruence.
  Qed.

  Lemma copyBack_some (img : image T) rows :
    Forall (fun r => List.length r = i_width img * i_channels img) rows -> List.length rows = i_height img ->
    copyBack img (map Some rows) = Ok (map nf32 (List.concat rows)).
  Proof.
    intros HF Hl. unfold copyBack. set (n := i_width img * i_channels img) in *.
    assert (Hb : List.length (blank img) = i_height img * n) by (unfold blank; rewrite repeat_length; unfold n; lia).
    assert (G : forall k, k <= i_height img ->
      for_each (seq 0 k) (fun i buf => let* r := getn (map Some rows) i in
        match r with
        | Some pvalue => copyRow (i * n) n pvalue buf
        | None => match n with O => Ok buf | _ => Err TypeError end
        end) (blank img) =
      Ok (map nf32 (List.concat (firstn k rows)) ++ skipn (k * n) (blank img))).
    { induction k as [|k IH]; intro Hk; [reflexivity|].
      rewrite seq_S, for_each_app, IH by lia. cbn [bind for_each Nat.add].
      destruct (getn_lt rows k ltac:(lia)) as [r Hr]. apply getn_some in Hr.
      assert (Er : getn (map Some rows) k = Ok (Some r)) by (apply getn_some; rewrite nth_error_map, Hr; reflexivity).
      rewrite Er. cbn [bind].
      assert (Hrl : List.length r = n) by (eapply Forall_forall in HF; [exact HF|eapply nth_error_In; eauto]).
      assert (HFk : Forall (fun r => List.length r = n) (firstn k rows)).
      { apply Forall_forall. intros x Hx. eapply Forall_forall in HF; [exact HF|]. rewrite <- (firstn_skipn k rows). apply in_app_iff. now left. }
      assert (El : List.length (map nf32 (List.concat (firstn k rows))) = k * n).
      { rewrite map_length. clear - HFk Hk Hl. assert (X : List.length (firstn k rows) = k) by (rewrite firstn_length; lia).
        rewrite <- X at 2. clear X. induction HFk as [|y t Hy _ IH]; [reflexivity|]. cbn [List.concat List.length]. rewrite app_length, IH, Hy. lia. }
      set (A := map nf32 (List.concat (firstn k rows))) in *.
      rewrite copyRow_ok by (rewrite ?app_length, ?El, ?skipn_length, ?Hb, ?Hrl; nia).
      cbn [bind]. rewrite firstn_app, El, Nat.sub_diag, firstn_O, app_nil_r, (firstn_all2 A) by lia.
      rewrite skipn_app, El, (skipn_all2 A) by lia. cbn [app].
      rewrite skipn_skipn. replace (k * n + (k * n + n - k * n)) with (S k * n) by (cbn; lia).
      rewrite <- Hrl at 1. rewrite firstn_all.
      rewrite app_assoc. do 2 f_equal. unfold A.
      assert (Ek : firstn (S k) rows = firstn k rows ++ [r]).
      { clear - Hr. revert k Hr. induction rows as [|x t IH]; intros [|k] Hv; try discriminate.
        - injection Hv as ->. reflexivity.
        - cbn [firstn app]. f_equal. now apply IH. }
      rewrite Ek, concat_app, map_app. cbn [List.concat]. now rewrite app_nil_r. }
    rewrite (G (i_height img)) by lia. rewrite <- Hl at 1. rewrite firstn_all.
    rewrite skipn_all2 by lia. now rewrite app_nil_r.
  Qed.

  Lemma copyBack_none (img : image T) results row :
    i_width img * i_channels img <> 0 -> row < i_height img -> nth_error results row = Some None ->
    exists e, copyBack img results = Err e.
  Proof.
    intros Hn Hr Hx. unfold copyBack. apply (for_each_stops _ _ (fun _ => True) row).
    - apply in_seq. lia.
    - exact I.
    - intros; exact I.
    - intros t _. assert (E : getn results row = Ok None) by now apply getn_some. rewrite E. cbn [bind].
      destruct (i_width img * i_channels img); [lia|]. eexists; reflexivity.
  Qed.

  (** ** The pool *)
  Definition poolInv (work : nat -> option (list T)) (n : nat) (s : pool T) : Prop :=
    List.length (p_slots s) = n /\ (forall t v, nth_error (p_slots s) t = Some (Some v) -> v = work t).

  Lemma start_inv work n : poolInv work n (startPool n).
  Proof.
    split; cbn; [apply repeat_length|]. intros t v H. apply nth_error_In, repeat_spec in H. discriminate.
  Qed.
  Lemma step_inv k work n s s' : poolStep k work s s' -> poolInv work n s -> poolInv work n s'.
  Proof.
    intros H [I1 I2]. destruct H as [w t rest running slots Hw Hf|w t before after pending slots slots' Hs]; cbn in *.
    - split; assumption.
    - split; [cbn; apply setn_length in Hs; congruence|]. cbn. intros t' v Ht. rewrite (setn_nth _ _ _ _ t' Hs) in Ht.
      destruct (Nat.eqb_spec t t') as [<-|Hne]; [congruence|]. now apply I2.
  Qed.
  Lemma steps_inv k work n s s' : poolSteps k work s s' -> poolInv work n s -> poolInv work n s'.
  Proof. induction 1; [auto|]. intro. apply IHpoolSteps. eapply step_inv; eauto. Qed.

  Lemma pool_results k (work : nat -> option (list T)) n results : poolGet k work n (Some results) -> results = map work (seq 0 n).
  Proof.
    intro H. inversion H as [s r Hs Hr|]; subst. destruct (steps_inv _ _ n _ _ Hs (start_inv work n)) as [I1 I2].
    apply PBase.nth_error_ext. intro i.
    assert (L : List.length results = n) by (rewrite Hr, map_length in I1; exact I1).
    destruct (Nat.lt_ge_cases i n) as [Hi|Hi].
    - destruct (nth_error results i) as [v|] eqn:E; [|apply nth_error_None in E; lia].
      rewrite nth_error_map, (nth_error_nth' (seq 0 n) 0) by (rewrite seq_length; lia). rewrite seq_nth by lia. cbn.
      f_equal. apply I2. rewrite Hr, nth_error_map, E. reflexivity.
    - rewrite (proj2 (nth_error_None _ _)) by lia. symmetry. apply nth_error_None. rewrite map_length, seq_length. lia.
  Qed.

  Lemma steps_trans k work (a b c : pool T) : poolSteps k work a b -> poolSteps k work b c -> poolSteps k work a c.
  Proof. induction 1; [auto|]. intro. econstructor; eauto. Qed.

  (** One worker doing all the tasks in turn is one of the runs. *)
  Lemma pool_runs k (work : nat -> option (list T)) n : 0 < k -> poolGet k work n (Some (map work (seq 0 n))).
  Proof.
    intro Hk.
    assert (G : forall m, m <= n -> poolSteps k work (startPool n)
       {| p_pending := seq m (n - m); p_running := []; p_slots := map (fun i => Some (work i)) (seq 0 m) ++ repeat None (n - m) |}).
    { induction m as [|m IH]; intro Hm.
      - cbn [seq map app]. rewrite Nat.sub_0_r. constructor.
      - eapply steps_trans; [apply IH; lia|].
        replace (n - m) with (S (n - S m)) by lia. change (seq m (S (n - S m))) with (m :: seq (S m) (n - S m)).
        eapply PMore; [apply (PTake _ _ 0); [exact Hk|cbn; tauto]|].
        eapply PMore; [|apply PDone]. apply (PFinish _ _ 0 m [] []).
        rewrite setn_lt by (rewrite app_length, map_length, seq_length, repeat_length; lia). cbn [repeat].
        rewrite firstn_app, map_length, seq_length, Nat.sub_diag, firstn_O, app_nil_r, firstn_all2 by (rewrite map_length, seq_length; lia).
        rewrite skipn_app, map_length, seq_length, skipn_all2 by (rewrite map_length, seq_length; lia).
        replace (S m - m) with 1 by lia. cbn [skipn app].
        rewrite seq_S, map_app, <- app_assoc. reflexivity. }
    eapply GetAll; [apply (G n); lia|]. cbn [p_slots]. rewrite Nat.sub_diag. cbn [repeat]. rewrite app_nil_r, map_map. reflexivity.
  Qed.

  (** As long as a slot is empty some worker can take or finish a task. *)
  Definition poolLive (n : nat) (s : pool T) : Prop :=
    List.length (p_slots s) = n /\
    (forall t, t < n -> nth_error (p_slots s) t = Some None -> In t (p_pending s) \/ In t (map snd (p_running s))) /\
    Forall (fun t => t < n) (p_pending s) /\ Forall (fun t => t < n) (map snd (p_running s)).
  Lemma start_live n : poolLive n (startPool n).
  Proof.
    unfold poolLive. cbn. rewrite repeat_length. split; [reflexivity|]. split; [|split].
    - intros t Ht _. left. apply in_seq. lia.
    - apply Forall_forall. intros x Hx. apply in_seq in Hx. lia.
    - constructor.
  Qed.
  Lemma step_live k work n s s' : poolStep k work s s' -> poolLive n s -> poolLive n s'.
  Proof.
    intros H (L1 & L2 & L3 & L4).
    destruct H as [w t rest running slots Hw Hf|w t before after pending slots slots' Hs]; unfold poolLive; cbn in *.
    - inversion L3; subst. split; [reflexivity|]. split; [|split; [assumption|constructor; assumption]].
      intros t' Ht' Hx. destruct (L2 t' Ht' Hx) as [[->|Hp]|Hr]; auto.
    - split; [apply setn_length in Hs; congruence|]. rewrite map_app in *. cbn in *. split; [|split; [assumption|]].
      + intros t' Ht' Hx. rewrite (setn_nth _ _ _ _ t' Hs) in Hx. destruct (Nat.eqb_spec t t') as [<-|Hne]; [discriminate|].
        destruct (L2 t' Ht' Hx) as [Hp|Hr]; [now left|right]. rewrite in_app_iff in *. cbn in Hr. destruct Hr as [Hr|[Hr|Hr]]; auto; contradiction.
      + apply Forall_app in L4. destruct L4 as [L4 L5]. inversion L5; subst. apply Forall_app. split; assumption.
  Qed.
  Lemma steps_live k work n s s' : poolSteps k work s s' -> poolLive n s -> poolLive n s'.
  Proof. induction 1; [auto|]. intro. apply IHpoolSteps. eapply step_live; eauto. Qed.

  Theorem pool_progress k work n (s : pool T) : 0 < k -> poolSteps k work (startPool n) s -> In None (p_slots s) -> exists s', poolStep k work s s'.
  Proof.
    intros Hk Hs Hn. destruct (steps_live _ _ n _ _ Hs (start_live n)) as (L1 & L2 & L3 & L4).
    apply In_nth_error in Hn. destruct Hn as [t Ht].
    assert (Htn : t < n) by (rewrite <- L1; apply nth_error_Some; congruence).
    destruct s as [pending running slots]. cbn in *. destruct running as [|[w u] running].
    - destruct (L2 t Htn Ht) as [Hp|[]]. destruct pending as [|p pending]; [contradiction|].
      eexists. apply (PTake _ _ 0); [assumption|cbn; tauto].
    - inversion L4; subst. cbn in *. eexists. apply (PFinish _ _ w u []).
      rewrite setn_lt by lia. reflexivity.
  Qed.

  (** Every step uses up one hand-out or one completion. *)
  Definition poolCost (s : pool T) : nat := 2 * List.length (p_pending s) + List.length (p_running s).
  Theorem pool_step_cost k work s s' : poolStep k work s s' -> poolCost s' < poolCost s.
  Proof. intro H. destruct H; unfold poolCost; cbn; rewrite ?app_length; cbn; lia. Qed.
  Lemma start_cost n : poolCost (startPool n) = 2 * n.
  Proof. unfold poolCost. cbn. rewrite seq_length. lia. Qed.

  (** ** A row *)
  Lemma range_option c dIn dOut (v : list T) st :
    match runRange c (adapter dIn dOut) v st with Ok w => Some w | Err _ => None end = rescaled c dIn dOut st v.
  Proof.
    unfold runRange, adapter, rescaled. destruct (aval_eqb dIn dOut); [reflexivity|].
    destruct (nodeProcess c _ v st); reflexivity.
  Qed.

  Lemma row_through c (l : plist T) (img : image T) od height (row : list T) : 2 <= height ->
    toOpt (filterRow c (setupFor l img od) height (i_channels img) row) =
    filteredRow c l (i_depth img) (outDepthOf img od) (i_channels img) row.
  Proof.
    intro Hh. unfold filterRow, progress. destruct (Nat.leb_spec height 1); [lia|]. cbn [bind setupFor s_inRange s_list s_outRange].
    unfold filteredRow. rewrite <- range_option.
    destruct (runRange c (adapter (AStr (i_depth img)) (listInDepth l)) (map nf32 row) (i_channels img)) as [u|e]; [|reflexivity].
    cbn [bind]. destruct (listProcess c l u (i_channels img)) as [o|e]; [|reflexivity]. cbn [bind colours].
    rewrite <- range_option. destruct (runRange _ _ _ _); reflexivity.
  Qed.

  Lemma rescaled_length c dIn dOut st (v w : list T) : rescaled c dIn dOut st v = Some w -> List.length w = List.length v.
  Proof.
    unfold rescaled. destruct (aval_eqb dIn dOut); [congruence|]. destruct (nodeProcess c _ v st) as [o|e] eqn:E; [|discriminate].
    cbn [colours]. intro H. injection H as <-. eapply (proj1 (node_length c _ _ _ _ E)).
  Qed.
  Lemma through_length c l d1 d2 st (row out : list T) : filteredRow c l d1 d2 st row = Some out -> List.length out = List.length row.
  Proof.
    unfold filteredRow. destruct (rescaled c (AStr d1) (listInDepth l) st (map nf32 row)) as [u|] eqn:E1; [|discriminate].
    destruct (listProcess c l u st) as [o|e] eqn:E2; [|discriminate]. cbn [colours]. intro H.
    apply rescaled_length in H, E1. rewrite map_length in E1. rewrite H, (proj1 (list_length _ _ _ _ _ E2)). exact E1.
  Qed.

  Lemma rows_of img rows i : hasRows (T := T) img rows -> i < i_height img -> nth_error rows i = Some (rowOf img i).
  Proof.
    intros [[E HF] Hl] Hi. unfold rowOf. rewrite E. unfold slice.
    replace (i * (i_width img * i_channels img) + i_width img * i_channels img - i * (i_width img * i_channels img)) with
      (i_width img * i_channels img) by lia.
    rewrite concat_slice by (assumption || lia). rewrite (nth_error_nth' rows []) by lia. reflexivity.
  Qed.

  (** ** Multithreaded *)
  Definition thr c l (img : image T) od := filteredRow c l (i_depth img) (outDepthOf img od) (i_channels img).

  Lemma work_rows c l (img : image T) od rows : 2 <= i_height img -> hasRows img rows ->
    map (workRow c (setupFor l img od) img) (seq 0 (i_height img)) = map (thr c l img od) rows.
  Proof.
    intros Hh Hr. apply PBase.nth_error_ext. intro i. rewrite !nth_error_map.
    destruct (Nat.lt_ge_cases i (i_height img)) as [Hi|Hi].
    - rewrite (nth_error_nth' (seq 0 (i_height img)) 0) by (rewrite seq_length; lia). rewrite seq_nth by lia.
      rewrite (rows_of img rows i Hr Hi). cbn [option_map Nat.add]. f_equal. unfold thr. rewrite <- (row_through c l img od (i_height img)) by assumption.
      unfold workRow. destruct (filterRow _ _ _ _ _); reflexivity.
    - destruct Hr as [_ Hl]. rewrite !(proj2 (nth_error_None _ _)) by (rewrite ?seq_length; lia). reflexivity.
  Qed.

  Lemma each_rows (f : list T -> option (list T)) rows v : each f rows = Some v ->
    exists outs, map f rows = map Some outs /\ v = List.concat outs.
  Proof.
    revert v. induction rows as [|r t IH]; intros v H; cbn [each] in H.
    - injection H as <-. exists []. split; reflexivity.
    - destruct (f r) as [a|] eqn:E; [|discriminate]. destruct (each f t) as [b|]; [|discriminate]. injection H as <-.
      destruct (IH b eq_refl) as [outs [E1 ->]]. exists (a :: outs). cbn. now rewrite E, E1.
  Qed.
  Lemma each_none (f : list T -> option (list T)) rows : each f rows = None -> exists i, i < List.length rows /\ nth_error (map f rows) i = Some None.
  Proof.
    induction rows as [|r t IH]; intro H; cbn [each] in H; [discriminate|].
    destruct (f r) as [a|] eqn:E.
    - destruct (each f t) as [b|]; [discriminate|]. destruct (IH eq_refl) as [i [Hi Hx]]. exists (S i). cbn. split; [lia|assumption].
    - exists 0. cbn. split; [lia|]. now rewrite E.
  Qed.

  Theorem multi_result c l (img : image T) od k rows out :
    2 <= i_height img -> i_width img * i_channels img <> 0 -> hasRows img rows -> filterInTime c l img od k out ->
    out = match each (thr c l img od) rows with Some v => FWrite (map nf32 v) | None => FReturn end.
  Proof.
    intros Hh Hn Hr H. destruct H as [results Hg]. apply pool_results in Hg. rewrite (work_rows c l img od rows Hh Hr) in Hg. subst.
    destruct (each (thr c l img od) rows) as [v|] eqn:E.
    - destruct (each_rows _ _ _ E) as [outs [E1 ->]]. rewrite E1. destruct Hr as [[Hp HF] Hl]. rewrite copyBack_some; [reflexivity| |].
      + clear - E1 HF. revert outs E1. induction HF as [|r t Hr HF IH]; intros [|o outs] E1; try discriminate; constructor.
        * cbn in E1. injection E1 as E1 _. unfold thr in E1. apply through_length in E1. congruence.
        * cbn in E1. injection E1 as _ E1. now apply IH.
      + rewrite <- Hl. apply (f_equal (@List.length _)) in E1. rewrite !map_length in E1. congruence.
    - destruct (each_none _ _ E) as [i [Hi Hx]]. destruct Hr as [_ Hl].
      destruct (copyBack_none img (map (thr c l img od) rows) i Hn ltac:(lia) Hx) as [e He]. now rewrite He.
  Qed.

  Theorem multi_runs c l (img : image T) od k : 0 < k -> exists out, filterInTime c l img od k out.
  Proof. intro Hk. eexists. constructor. apply pool_runs. assumption. Qed.

  Theorem multi_or_timeout c l (img : image T) od k out : 1 < k -> filterImage c l img od k out -> out = FReturn \/ filterInTime c l img od k out.
  Proof.
    intros Hk H. unfold filterImage in H. destruct (Nat.ltb_spec 1 k); [|lia]. destruct H as [results H|H]; [right|now left].
    constructor. assumption.
  Qed.
  Theorem in_time_is_run c l (img : image T) od k out : 1 < k -> filterInTime c l img od k out -> filterImage c l img od k out.
  Proof.
    intros Hk H. unfold filterImage. destruct (Nat.ltb_spec 1 k); [|lia]. destruct H as [results H]. constructor. assumption.
  Qed.

  (** *** Pixel by pixel *)
  Lemma rescaled_pwise c dIn dOut st : st <> 0 ->
    forall pxs, pxs <> [] -> Forall (fun px => List.length px = st) pxs ->
    rescaled c dIn dOut st (List.concat pxs) = each (rescaled c dIn dOut st) pxs.
  Proof.
    intros Hst pxs Hne HF. unfold rescaled. destruct (aval_eqb dIn dOut).
    - clear. induction pxs as [|p t IH]; [reflexivity|]. cbn [each List.concat]. now rewrite <- IH.
    - apply node_pixels; [assumption| |assumption|split; [reflexivity|assumption]]. unfold newRange. cbn. auto.
  Qed.

  Lemma through_toOpt c l d1 d2 st (v : list T) :
    filteredRow c l d1 d2 st v =
    toOpt (let* u := (match rescaled c (AStr d1) (listInDepth l) st (map nf32 v) with Some u => Ok u | None => Err ValueError end) in
           let* w := (match colours (listProcess c l u st) with Some w => Ok w | None => Err ValueError end) in
           match rescaled c (listOutDepth l) (AStr d2) st w with Some w => Ok w | None => Err ValueError end).
  Proof.
    unfold filteredRow. destruct (rescaled c (AStr d1) (listInDepth l) st (map nf32 v)) as [u|]; [|reflexivity]. cbn [bind].
    destruct (colours (listProcess c l u st)) as [w|]; [|reflexivity]. cbn [bind].
    destruct (rescaled c (listOutDepth l) (AStr d2) st w); reflexivity.
  Qed.

  Lemma opt_pwise st (g : list T -> option (list T)) :
    (forall pxs, pxs <> [] -> Forall (fun px => List.length px = st) pxs -> g (List.concat pxs) = each g pxs) ->
    pwise st (fun v => match g v with Some w => Ok w | None => Err ValueError end).
  Proof.
    intros H pxs Hn HF.
    assert (E : forall v, toOpt (match g v with Some w => Ok w | None => Err ValueError end) = g v) by (intro v; destruct (g v); reflexivity).
    rewrite E, (H pxs Hn HF). apply each_ext. intros. now rewrite E.
  Qed.

  Lemma through_pwise c l d1 d2 st : st <> 0 -> Forall (noneInside isExposureContrast) (procs_of l) ->
    forall pxs, pxs <> [] -> Forall (fun px => List.length px = st) pxs ->
    filteredRow (T := T) c l d1 d2 st (List.concat pxs) = each (filteredRow c l d1 d2 st) pxs.
  Proof.
    intros Hst HE pxs Hne HF. rewrite through_toOpt.
    set (A := fun v => match rescaled c (AStr d1) (listInDepth l) st (map nf32 v) with Some u => Ok u | None => Err ValueError end).
    set (B := fun u => match colours (listProcess c l u st) with Some w => Ok w | None => Err ValueError end).
    set (C := fun w => match rescaled c (listOutDepth l) (AStr d2) st w with Some w => Ok w | None => Err ValueError end).
    assert (PA : pwise st A).
    { unfold A. apply (opt_pwise st (fun v => rescaled c (AStr d1) (listInDepth l) st (map nf32 v))).
      intros ps Hn HF'. rewrite concat_map. rewrite rescaled_pwise; [|assumption| |].
      - clear. induction ps as [|p t IH]; [reflexivity|]. cbn [map each]. now rewrite IH.
      - destruct ps; [congruence|discriminate].
      - clear - HF'. induction HF'; constructor; [now rewrite map_length|assumption]. }
    assert (LA : lenpres st A).
    { intros v w Hv Hw. unfold A in Hw. destruct (rescaled _ _ _ _ _) eqn:E; [|discriminate]. injection Hw as <-.
      apply rescaled_length in E. rewrite map_length in E. congruence. }
    assert (PB : pwise st B).
    { unfold B. apply (opt_pwise st (fun u => colours (listProcess c l u st))). intros ps Hn HF'.
      apply list_pixels; try assumption. split; [reflexivity|assumption]. }
    assert (LB : lenpres st B).
    { intros v w Hv Hw. unfold B in Hw. destruct (listProcess c l v st) as [o|] eqn:E; [|discriminate]. cbn [colours] in Hw. injection Hw as <-.
      apply list_length in E. destruct E as [E _]. congruence. }
    assert (PC : pwise st C) by (unfold C; apply opt_pwise; now apply rescaled_pwise).
    pose proof (pwise_bind st _ _ PB LB PC) as PBC.
    pose proof (pwise_bind st A (fun u => let* w := B u in C w) PA LA PBC pxs Hne HF) as X.
    cbv beta in X. etransitivity; [exact X|]. apply each_ext. intros px _. now rewrite through_toOpt.
  Qed.

  Lemma each_app (f : list T -> option (list T)) a b :
    each f (a ++ b) = match each f a, each f b with Some x, Some y => Some (x ++ y) | _, _ => None end.
  Proof.
    induction a as [|x t IH]; cbn [each app]; [destruct (each f b); reflexivity|].
    rewrite IH. destruct (f x), (each f t), (each f b); try reflexivity. now rewrite app_assoc.
  Qed.

  (** Cutting a list of [a*b*c] things. *)
  Lemma cut_rows (st w : nat) : forall h (pxs : list (list T)), List.length pxs = w * h ->
    exists groups, pxs = List.concat groups /\ List.length groups = h /\ Forall (fun g => List.length g = w) groups.
  Proof.
    induction h as [|h IH]; intros pxs Hl.
    - exists []. destruct pxs; [split; [reflexivity|split; [reflexivity|constructor]]|cbn in Hl; lia].
    - destruct (IH (skipn w pxs)) as [gs [E [H1 H2]]]; [rewrite skipn_length; lia|].
      exists (firstn w pxs :: gs). cbn [List.concat List.length]. rewrite <- E, firstn_skipn. split; [reflexivity|]. split; [lia|].
      constructor; [rewrite firstn_length; lia|assumption].
  Qed.

  Theorem multi_pixels c l (img : image T) od k pxs out :
    2 <= i_height img -> i_width img <> 0 -> i_channels img <> 0 ->
    Forall (noneInside isExposureContrast) (procs_of l) ->
    cutInto (i_channels img) pxs (i_pixels img) -> List.length pxs = i_width img * i_height img ->
    filterInTime c l img od k out ->
    out = match each (thr c l img od) pxs with Some v => FWrite (map nf32 v) | None => FReturn end.
  Proof.
    intros Hh Hw Hc HE [Hp HF] Hl H.
    destruct (cut_rows (i_channels img) (i_width img) (i_height img) pxs Hl) as [gs [E [G1 G2]]].
    assert (Hg : Forall (Forall (fun px => List.length px = i_channels img)) gs).
    { subst pxs. clear - HF. induction gs as [|g gs IH]; [constructor|]. cbn [List.concat] in HF. apply Forall_app in HF.
      destruct HF. constructor; auto. }
    assert (Hr : hasRows img (map (fun g => List.concat g) gs)).
    { split; [split|].
      - rewrite Hp, E. clear. induction gs as [|g gs IH]; [reflexivity|]. cbn [List.concat map]. now rewrite concat_app, IH.
      - clear - G2 Hg. induction G2 as [|g gs Hx G2 IH]; [constructor|]. inversion Hg as [|? ? Hg1 Hg2]; subst. cbn [map]. constructor; [|auto].
        rewrite <- Hx. clear - Hg1. induction Hg1 as [|p t Hp _ IH]; [reflexivity|]. cbn [List.concat List.length]. rewrite app_length, IH, Hp. lia.
      - now rewrite map_length. }
    rewrite (multi_result c l img od k _ out Hh ltac:(nia) Hr H). subst pxs.
    replace (each (thr c l img od) (map (fun g => List.concat g) gs)) with (each (thr c l img od) (List.concat gs)); [reflexivity|].
    clear - Hg G2 Hc HE Hw. induction gs as [|g gs IH]; [reflexivity|]. inversion Hg; inversion G2; subst.
    cbn [List.concat map each]. rewrite each_app. rewrite IH by assumption.
    unfold thr at 1 3. rewrite (through_pwise c l _ _ _ Hc HE g); [reflexivity| |assumption]. destruct g; [cbn in *; lia|discriminate].
  Qed.

  (** ** Single-threaded *)
  Theorem single_result c l (img : image T) od rows : hasRows img rows -> 6 <= i_height img ->
    let n := i_width img * i_channels img in
    match thr c l img od (nth 5 rows []) with
    | Some v => filterSingle c l img od = FWrite (repeat n0 (5 * n) ++ map nf32 v ++ repeat n0 (n * (i_height img - 6)))
    | None => exists e, filterSingle c l img od = FRaise e
    end.
  Proof.
    intros Hr Hh n. unfold filterSingle, filterRowInto. pose proof (rows_of img rows 5 Hr ltac:(lia)) as E5.
    rewrite (nth_error_nth rows 5 [] E5).
    pose proof (row_through c l img od (i_height img) (rowOf img 5) ltac:(lia)) as X. fold (thr c l img od) in X. rewrite <- X.
    destruct (filterRow c (setupFor l img od) (i_height img) (i_channels img) (rowOf img 5)) as [v|e] eqn:E; [|exists e; reflexivity].
    cbn [toOpt bind]. cbn [toOpt] in X. symmetry in X. unfold thr in X. apply through_length in X.
    destruct Hr as [[Hp HF] Hl].
    assert (Ln : List.length (rowOf img 5) = n). { eapply Forall_forall in HF; [exact HF|]. eapply nth_error_In; eauto. }
    fold n. assert (Hb : List.length (blank img) = i_height img * n) by (unfold blank; rewrite repeat_length; unfold n; lia).
    rewrite copyRow_ok by (rewrite ?Hb; nia). rewrite <- Ln, <- X, firstn_all, X, Ln.
    assert (Es : blank img = repeat n0 (5 * n) ++ repeat n0 (i_height img * n - 5 * n)).
    { rewrite <- repeat_app. unfold blank. f_equal. unfold n. nia. }
    rewrite Es. rewrite firstn_app, repeat_length, Nat.sub_diag, firstn_O, app_nil_r, firstn_all2 by (rewrite repeat_length; lia).
    rewrite skipn_app, repeat_length, skipn_all2 by (rewrite repeat_length; lia). cbn [app].
    replace (5 * n + n - 5 * n) with n by lia.
    assert (Er : skipn n (repeat (@n0 T N) (i_height img * n - 5 * n)) = repeat n0 (n * (i_height img - 6))).
    { replace (i_height img * n - 5 * n) with (n + n * (i_height img - 6)) by nia. rewrite repeat_app, skipn_app, repeat_length, Nat.sub_diag.
      rewrite skipn_all2 by (rewrite repeat_length; lia). reflexivity. }
    rewrite Er. reflexivity.
  Qed.

  Theorem single_short c l (img : image T) od : i_height img <= 5 -> i_width img * i_channels img <> 0 ->
    List.length (i_pixels img) <= i_width img * i_channels img * i_height img -> exists e, filterSingle (T := T) c l img od = FRaise e.
  Proof.
    intros Hh Hn Hp. unfold filterSingle, filterRowInto.
    destruct (filterRow c (setupFor l img od) (i_height img) (i_channels img) (rowOf img 5)) as [v|e] eqn:E; [|exists e; reflexivity].
    cbn [bind]. set (n := i_width img * i_channels img) in *.
    assert (H : exists e, copyRow (5 * n) n v (blank img) = Err e).
    { unfold copyRow. assert (Hb : List.length (blank img) = i_height img * n) by (unfold blank; rewrite repeat_length; unfold n; lia).
      apply (for_each_stops _ _ (fun b => List.length b = i_height img * n) 0).
      - apply in_seq. lia.
      - assumption.
      - intros y t t' _ Ht Hy. apply bind_ok in Hy. destruct Hy as [x [_ Hy]]. apply setn_length in Hy. congruence.
      - intros t Ht. destruct (getn v 0); [|eexists; reflexivity]. cbn [bind]. rewrite setn_over by nia. eexists; reflexivity. }
    destruct H as [e He]. rewrite He. exists e. reflexivity.
  Qed.

  Theorem one_row c l (img : image T) od k out : i_height img = 1 -> i_width img * i_channels img <> 0 -> filterImage (T := T) c l img od k out ->
    out = if Nat.ltb 1 k then FReturn else FRaise ZeroDivisionError.
  Proof.
    intros Hh Hn H. unfold filterImage in H.
    assert (F : filterRow c (setupFor l img od) (i_height img) (i_channels img) (rowOf img 0) = Err ZeroDivisionError).
    { unfold filterRow, progress. now rewrite Hh. }
    destruct (Nat.ltb 1 k).
    - destruct H as [results H|H]; [|reflexivity]. apply pool_results in H. rewrite Hh in H. cbn [seq map] in H.
      destruct (copyBack_none img results 0 Hn ltac:(lia)) as [e He]; [|now rewrite He].
      rewrite H. cbn [nth_error]. unfold workRow. now rewrite F.
    - subst. unfold filterSingle, filterRowInto, filterRow, progress. now rewrite Hh.
  Qed.
End Filter.
