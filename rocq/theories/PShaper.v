(** Proofs about createShaper and sample1D3D1D. *)
From Coq Require Import Lra.
From Verif Require Export PGrid PLog.
Local Open Scope R_scope.

Definition logParams (n : node R) : list (lparam R) := match n with Node _ (BLog ps) => ps | _ => [] end.
Definition logDefaults : logSettings :=
  {| lsGamma := fun _ => 6 / 10; lsWhite := fun _ => 685; lsBlack := fun _ => 95; lsHigh := fun _ => 1; lsShadow := fun _ => 0 |}.
Lemma defaultLog_data style :
  isLog (nheader (defaultLog (T := R) style)) (logParams (defaultLog style)) style (AStr "16f") (AStr "16f") logDefaults.
Proof. split; [reflexivity|]. split; [reflexivity|]. split; [reflexivity|]. split; [constructor|]. intros. repeat split; reflexivity. Qed.

Lemma pow2_R x : pypow (nofZ 2) x = Ok (Rpower 2 x).
Proof.
  unfold pypow. realize. rewrite Rpow_pos by lra.
  replace (Reqb 2 0) with false by (symmetry; apply Reqb_false; lra). cbn.
  replace (Rltb 2 0) with false by (symmetry; apply Rltb_false; lra). reflexivity.
Qed.

Lemma ln_mono x y : 0 < x -> x <= y -> ln x <= ln y.
Proof. intros Hx [H|H]; [left; now apply ln_increasing|subst; lra]. Qed.

(** Both kinds of shaper, forward and inverse. *)
Theorem shaper_undone c kind a b lo hi : a < b ->
  (kind = "linear"%string /\ lo = a /\ hi = b) \/
  (kind = "log2"%string /\ lo = Rpower 2 a /\ hi = Rpower 2 b /\ floatMin <= lo) ->
  exists F I f g,
    createShaper (Some kind) a b = Ok (F, I, lo, hi) /\
    mapsRGB c F (fun _ => f) /\ mapsRGB c I (fun _ => g) /\
    (forall x, lo <= x <= hi -> 0 <= f x <= 1 /\ g (f x) = x) /\
    (forall u, 0 <= u <= 1 -> lo <= g u <= hi /\ f (g u) = u) /\
    f lo = 0 /\ f hi = 1.
Proof.
  intros Hab.
  destruct (limitRange_maps c "" "" a b 0 1 Hab ltac:(lra)) as [r1 [A1 [B1 [L1 [H1 _]]]]].
  destruct (limitRange_maps c "" "" 0 1 a b ltac:(lra) ltac:(lra)) as [r2 [A2 [B2 [L2 [H2 _]]]]].
  assert (U : forall x, a <= x <= b -> 0 <= r1 x <= 1 /\ r2 (r1 x) = x).
  { intros x Hx. rewrite B1 by assumption. assert (Hu : 0 <= through a 0 b 1 x <= 1).
    { unfold through. assert (0 < / (b - a)) by (apply Rinv_0_lt_compat; lra). unfold Rdiv.
      rewrite Rplus_0_l, Rminus_0_r, Rmult_1_r. split; [apply Rmult_le_pos; lra|].
      apply Rmult_le_reg_r with (b - a); [lra|]. rewrite Rmult_assoc, Rinv_l by lra. lra. }
    split; [exact Hu|]. rewrite B2 by assumption. unfold through. field. lra. }
  assert (V : forall u, 0 <= u <= 1 -> a <= r2 u <= b /\ r1 (r2 u) = u).
  { intros u Hu. rewrite B2 by assumption. assert (Hx : a <= through 0 a 1 b u <= b) by (unfold through; split; nra).
    split; [exact Hx|]. rewrite B1 by assumption. unfold through. field. lra. }
  intros [[-> [-> ->]]|[-> [-> [-> Hm]]]].
  - exists (bareList [limitRange "" "" a b 0 1]), (bareList [limitRange "" "" 0 1 a b]), r1, r2.
    split; [reflexivity|]. split; [|split; [|split; [exact U|split; [exact V|split; [apply L1; lra|apply H1; lra]]]]].
    + apply list_maps. apply (chain_cons c _ _ (fun _ => r1) (fun _ x => x)); [reflexivity|now apply sample_maps|apply chain_nil].
    + apply list_maps. apply (chain_cons c _ _ (fun _ => r2) (fun _ x => x)); [reflexivity|now apply sample_maps|apply chain_nil].
  - destruct (log_pure c _ _ _ _ 2 "log2" "antiLog2" _ _ _ _ ltac:(right; auto) (defaultLog_data "log2") (defaultLog_data "antiLog2"))
      as [f [g [Af [Ag [Ef [Eg [Gf [_ Fg]]]]]]]]. cbn [fullScale] in *.
    assert (E2 : 0 < ln 2) by (rewrite <- ln_1; apply ln_increasing; lra).
    assert (Mono : forall x y, x <= y -> Rpower 2 x <= Rpower 2 y) by (intros; apply Rle_Rpower; lra).
    assert (Hf : forall x, Rpower 2 a <= x <= Rpower 2 b -> a <= f x <= b).
    { intros x Hx. rewrite Ef. replace (x / 1) with x by field. rewrite Rmax_left by lra.
      assert (0 < Rpower 2 a) by apply exp_pos. rewrite Rmult_1_r.
      assert (ln (Rpower 2 a) <= ln x) by (apply ln_mono; lra). assert (ln x <= ln (Rpower 2 b)) by (apply ln_mono; lra).
      unfold Rpower in H0, H3. rewrite ln_exp in H0, H3.
      assert (0 < / ln 2) by now apply Rinv_0_lt_compat. unfold Rdiv. split.
      - apply Rmult_le_reg_r with (ln 2); [lra|]. rewrite Rmult_assoc, Rinv_l by lra. lra.
      - apply Rmult_le_reg_r with (ln 2); [lra|]. rewrite Rmult_assoc, Rinv_l by lra. lra. }
    assert (Hg : forall y, a <= y <= b -> Rpower 2 a <= g y <= Rpower 2 b).
    { intros y Hy. rewrite Eg. replace (y / 1) with y by field. rewrite Rmult_1_r. split; apply Mono; lra. }
    assert (Fa : f (Rpower 2 a) = a).
    { transitivity (f (g a)); [f_equal; rewrite Eg; replace (a / 1) with a by field; ring|]. apply Fg. now replace (a / 1) with a by field. }
    assert (Fb : f (Rpower 2 b) = b).
    { transitivity (f (g b)); [f_equal; rewrite Eg; replace (b / 1) with b by field; ring|]. apply Fg. replace (b / 1) with b by field.
      pose proof (Mono a b ltac:(lra)). lra. }
    eexists _, _, (fun x => r1 (f x)), (fun u => g (r2 u)).
    split; [unfold createShaper; rewrite !pow2_R; reflexivity|].
    split; [|split; [|split; [|split; [|split]]]].
    + apply list_maps. apply (chain_cons c _ _ (fun _ => f) (fun _ => r1)); [reflexivity|now apply channel_maps|].
      apply (chain_cons c _ _ (fun _ => r1) (fun _ x => x)); [reflexivity|now apply sample_maps|apply chain_nil].
    + apply list_maps. apply (chain_cons c _ _ (fun _ => r2) (fun _ => g)); [reflexivity|now apply sample_maps|].
      apply (chain_cons c _ _ (fun _ => g) (fun _ x => x)); [reflexivity|now apply channel_maps|apply chain_nil].
    + intros x Hx. destruct (U (f x) (Hf x Hx)) as [U1 U2]. split; [exact U1|]. rewrite U2. apply Gf. lra.
    + intros u Hu. destruct (V u Hu) as [V1 V2]. split; [apply Hg; exact V1|]. rewrite Fg; [exact V2|].
      replace (r2 u / 1) with (r2 u) by field. pose proof (Mono a (r2 u) ltac:(lra)). lra.
    + rewrite Fa. apply L1. lra.
    + rewrite Fb. apply H1. lra.
Qed.

(** Any other shaper type, and None, give two empty lists for [0, 1]. *)
Theorem shaper_other (T : Type) (N : Num T) kind (a b : T) : kind <> Some "linear"%string -> kind <> Some "log2"%string ->
  createShaper kind a b = Ok (bareList [], bareList [], n0, n1).
Proof.
  intros H1 H2. unfold createShaper. destruct kind as [s|]; [|reflexivity].
  destruct (String.eqb_spec s "log2") as [->|Ha]; [congruence|]. destruct (String.eqb_spec s "linear") as [->|Hb]; [congruence|].
  reflexivity.
Qed.

Lemma onlyIf_ok {A} b (m : res A) o : onlyIf b m = Ok o ->
  (b = true -> exists x, o = Some x /\ m = Ok x) /\ (b = false -> o = None).
Proof.
  unfold onlyIf. destruct b; intro H; (split; intro Hb; try discriminate).
  - apply bind_ok in H. destruct H as [x [Hx H]]. apply Ok_inj in H. subst. eauto.
  - apply Ok_inj in H. congruence.
Qed.

(** What the three tables of sample1D3D1D hold. *)
Theorem pipeline_contents c l n1d n m n1dOut inType a b outType a' b' F I lo hi F' I' lo' hi' s :
  (2 <= n1d)%nat -> (2 <= n)%nat -> (2 <= m)%nat -> (2 <= n1dOut)%nat ->
  createShaper inType a b = Ok (F, I, lo, hi) -> createShaper outType a' b' = Ok (F', I', lo', hi') ->
  sample1D3D1D c l n1d n m n n1dOut inType a b outType a' b' = Ok s ->
  s_inMin s = lo /\ s_inMax s = hi /\ s_outMin s = lo' /\ s_outMax s = hi' /\
  (inType = None -> s_in s = None) /\
  (inType <> None -> exists t, s_in s = Some t /\ List.length t = (n1d * 3)%nat /\
     forall i, (i < n1d)%nat -> colourThrough c F (repeat (gridPoint n1d lo hi i) 3) = Ok (firstn 3 (skipn (i * 3) t))) /\
  (hasShape n m n (s_3d s) /\
   forall r g k, (r < n)%nat -> (g < m)%nat -> (k < n)%nat ->
     exists u p,
       (if given inType then colourThrough c I [gridPoint n 0 1 r; gridPoint m 0 1 g; gridPoint n 0 1 k] = Ok u
        else u = [gridPoint n 0 1 r; gridPoint m 0 1 g; gridPoint n 0 1 k]) /\
       colourThrough c l u = Ok p /\
       (if given outType then colourThrough c F' p = Ok (cellOf (s_3d s) r g k) else cellOf (s_3d s) r g k = p)) /\
  (outType = None -> s_out s = None) /\
  (outType <> None -> exists t, s_out s = Some t /\ List.length t = (n1dOut * 3)%nat /\
     forall i, (i < n1dOut)%nat -> colourThrough c I (repeat (gridPoint n1dOut 0 1 i) 3) = Ok (firstn 3 (skipn (i * 3) t))).
Proof.
  intros H1 Hn Hm H2 EI EO H. unfold sample1D3D1D in H. rewrite EI, EO in H. cbn [bind] in H.
  apply bind_ok in H. destruct H as [tin [Hin H]]. apply bind_ok in H. destruct H as [t3 [H3 H]].
  apply bind_ok in H. destruct H as [tout [Hout H]]. apply Ok_inj in H. subst s. cbn [s_inMin s_inMax s_outMin s_outMax s_in s_out s_3d].
  assert (SP : forall i k, (2 <= k)%nat -> samplePos i k = Ok (gridPoint k 0 1 i)).
  { intros i k Hk. rewrite samplePos_R by assumption. unfold gridPoint. f_equal. lra. }
  split; [reflexivity|]. split; [reflexivity|]. split; [reflexivity|]. split; [reflexivity|].
  apply onlyIf_ok in Hin. apply onlyIf_ok in Hout. destruct Hin as [In1 In2], Hout as [Out1 Out2].
  split; [intros ->; apply In2; reflexivity|]. split.
  { intro Hs. destruct In1 as [t [-> Et]]; [destruct inType; [reflexivity|congruence]|]. exists t. split; [reflexivity|].
    apply fillSamples_iff in Et.
    - destruct Et as [L Et]. split; [exact L|]. intros i Hi. rewrite <- (Et i Hi), samplePoint_R by assumption. reflexivity.
    - intros i v E. rewrite samplePoint_R in E by assumption. cbn [bind] in E. apply runList_length in E. exact E. }
  split.
  { match type of H3 with fillLattice n m n ?f = _ => set (G := f) in H3 end.
    rewrite (lattice_loop G) in H3. apply (nested_iff n m n G) in H3. destruct H3 as [Hs H3]. split; [exact Hs|].
    intros r g k Hr Hg Hk. specialize (H3 r g k Hr Hg Hk). unfold G in H3. rewrite !SP in H3 by assumption. cbn [bind] in H3.
    apply bind_ok in H3. destruct H3 as [u [Hu H3]]. apply bind_ok in H3. destruct H3 as [p [Hp H3]].
    exists u, p. split; [|split; [exact Hp|]].
    - destruct (given inType); [exact Hu|apply Ok_inj in Hu; congruence].
    - destruct (given outType); [exact H3|apply Ok_inj in H3; congruence]. }
  split; [intros ->; apply Out2; reflexivity|].
  intro Hs. destruct Out1 as [t [-> Et]]; [destruct outType; [reflexivity|congruence]|]. exists t. split; [reflexivity|].
  apply fillSamples_iff in Et.
  - destruct Et as [L Et]. split; [exact L|]. intros i Hi. rewrite <- (Et i Hi), SP by assumption. reflexivity.
  - intros i v E. rewrite SP in E by assumption. cbn [bind] in E. apply runList_length in E. exact E.
Qed.

Lemma maps_colour c l f px : mapsRGB c l f -> List.length px = 3%nat -> colourThrough c l px = Ok (rgb f px).
Proof. intros H L. unfold colourThrough. rewrite runList_outcome by assumption. apply H. now rewrite L. Qed.

Lemma grey_map (f : R -> R) x : rgb (fun _ => f) (repeat x 3) = [f x; f x; f x].
Proof. reflexivity. Qed.

(** The output table undoes the output shaper exactly when the shapers agree. *)
Theorem output_table_right c l n1d n m n1dOut a b a' b' s t :
  (2 <= n1d)%nat -> (2 <= n)%nat -> (2 <= m)%nat -> (2 <= n1dOut)%nat -> a < b -> a' < b' ->
  sample1D3D1D c l n1d n m n n1dOut (Some "linear"%string) a b (Some "linear"%string) a' b' = Ok s -> s_out s = Some t ->
  (forall F' I' lo' hi' i, createShaper (Some "linear"%string) a' b' = Ok (F', I', lo', hi') -> (i < n1dOut)%nat ->
     colourThrough c I' (repeat (gridPoint n1dOut 0 1 i) 3) = Ok (firstn 3 (skipn (i * 3) t))) <-> a = a' /\ b = b'.
Proof.
  intros H1 Hn Hm H2 Hab Hab' H Ht.
  assert (E1 : createShaper (Some "linear"%string) a b = Ok (bareList [limitRange "" "" a b 0 1], bareList [limitRange "" "" 0 1 a b], a, b)) by reflexivity.
  assert (E2 : createShaper (Some "linear"%string) a' b' = Ok (bareList [limitRange "" "" a' b' 0 1], bareList [limitRange "" "" 0 1 a' b'], a', b')) by reflexivity.
  destruct (pipeline_contents _ _ _ _ _ _ _ _ _ _ _ _ _ _ _ _ _ _ _ _ _ H1 Hn Hm H2 E1 E2 H) as [_ [_ [_ [_ [_ [_ [_ [_ HO]]]]]]]].
  destruct HO as [t' [Et [_ HO]]]; [discriminate|]. rewrite Ht in Et. injection Et as <-.
  split.
  - intro HR. specialize (fun i => HR _ _ _ _ i E2).
    destruct (grid_ends n1dOut 0 1 H2) as [G0 [G1 _]].
    assert (G : forall a b, a < b ->
       colourThrough c (bareList [limitRange "" "" 0 1 a b]) (repeat (gridPoint n1dOut 0 1 0) 3) = Ok [a; a; a] /\
       colourThrough c (bareList [limitRange "" "" 0 1 a b]) (repeat (gridPoint n1dOut 0 1 (n1dOut - 1)) 3) = Ok [b; b; b]).
    { clear - G0 G1. intros a b Hab. destruct (limitRange_maps c "" "" 0 1 a b ltac:(lra) ltac:(lra)) as [r [A [_ [L [U _]]]]].
      assert (M : mapsRGB c (bareList [limitRange "" "" 0 1 a b]) (fun _ => r)).
      { apply list_maps. apply (chain_cons c _ _ (fun _ => r) (fun _ x => x)); [reflexivity|now apply sample_maps|apply chain_nil]. }
      rewrite !(maps_colour _ _ _ _ M) by apply repeat_length. rewrite !grey_map, G0, G1, (L 0), (U 1) by lra. auto. }
    destruct (G a b Hab) as [A1 A2]. destruct (G a' b' Hab') as [A3 A4].
    pose proof (HR 0%nat ltac:(lia)) as R0. rewrite <- (HO 0%nat ltac:(lia)), A1, A3 in R0.
    pose proof (HR (n1dOut - 1)%nat ltac:(lia)) as R1. rewrite <- (HO (n1dOut - 1)%nat ltac:(lia)), A2, A4 in R1.
    injection R0 as R0. injection R1 as R1. auto.
  - intros [-> ->] F' I' lo' hi' i E Hi. rewrite E2 in E. injection E as <- <- <- <-. apply HO. exact Hi.
Qed.
