(** Range and bit depths in exact arithmetic. *)
From Coq Require Import Lra.
From Verif Require Export SpecReal PReal PAct.
Local Open Scope R_scope.

Ltac aval_cases d :=
  let s := fresh "s" in
  destruct d as [s|?|]; cbn [aval_eqb]; [
    destruct (String.eqb s "8i") eqn:?E8; [apply String.eqb_eq in E8; subst s|
    destruct (String.eqb s "10i") eqn:?E10; [apply String.eqb_eq in E10; subst s|
    destruct (String.eqb s "12i") eqn:?E12; [apply String.eqb_eq in E12; subst s|
    destruct (String.eqb s "16i") eqn:?E16; [apply String.eqb_eq in E16; subst s|]]]]| |].

Lemma fullScale_other s :
  String.eqb s "8i" = false -> String.eqb s "10i" = false -> String.eqb s "12i" = false -> String.eqb s "16i" = false ->
  fullScale (AStr s) = 1.
Proof.
  intros H1 H2 H3 H4. unfold fullScale.
  repeat match goal with
         | |- context [match ?s with EmptyString => _ | String _ _ => _ end] => destruct s; try reflexivity
         | |- context [match ?a with Ascii.Ascii _ _ _ _ _ _ _ _ => _ end] => destruct a
         | |- context [if ?b then _ else _] => destruct b; try reflexivity
         end; vm_compute in H1, H2, H3, H4; discriminate.
Qed.

Lemma fullScale_pos d : 0 < fullScale d.
Proof. aval_cases d; try (cbn; lra). rewrite fullScale_other by assumption. lra. Qed.

Lemma bitDepthSize_R d : bitDepthSize d = fullScale d.
Proof.
  unfold bitDepthSize. aval_cases d; try reflexivity. rewrite fullScale_other by assumption. reflexivity.
Qed.
Lemma normalize_R v d : bitDepthToNormalized v d = v / fullScale d.
Proof.
  unfold bitDepthToNormalized. aval_cases d; try reflexivity; realize; try (cbn [fullScale]; field).
  rewrite fullScale_other by assumption. field.
Qed.
Lemma denormalize_R v d : normalizedToBitDepth v d = v * fullScale d.
Proof.
  unfold normalizedToBitDepth. aval_cases d; try reflexivity; realize; try (cbn [fullScale]; ring).
  rewrite fullScale_other by assumption. ring.
Qed.

Theorem depth_roundtrip v d :
  normalizedToBitDepth (bitDepthToNormalized v d) d = v /\ bitDepthToNormalized (normalizedToBitDepth v d) d = v.
Proof. rewrite !normalize_R, !denormalize_R. pose proof (fullScale_pos d). split; field; lra. Qed.
Theorem full_scale v d :
  bitDepthSize d = fullScale d /\ bitDepthToNormalized v d = v / fullScale d /\ bitDepthToNormalized (bitDepthSize d) d = 1.
Proof. rewrite !normalize_R, bitDepthSize_R. pose proof (fullScale_pos d). repeat split. field; lra. Qed.

Theorem unknown_depth {T} {N : Num T} (v : T) d :
  ~ In d [AStr "8i"; AStr "10i"; AStr "12i"; AStr "16i"]%string ->
  bitDepthToNormalized v d = v /\ normalizedToBitDepth v d = v /\ bitDepthSize d = n1.
Proof.
  intro H. unfold bitDepthToNormalized, normalizedToBitDepth, bitDepthSize.
  assert (E : forall s, In (AStr s) [AStr "8i"; AStr "10i"; AStr "12i"; AStr "16i"]%string -> aval_eqb d (AStr s) = false).
  { intros s Hs. destruct (aval_eqb d (AStr s)) eqn:E; [|reflexivity]. exfalso. apply H.
    destruct d; try discriminate. cbn in E. apply String.eqb_eq in E. subst. exact Hs. }
  rewrite !E by (cbn; auto). auto.
Qed.

(** ** One element *)

Definition fx (s : bool) (lo hi : option R) (y : R) : R :=
  if s then
    let y := match lo with Some l => Rmax l y | None => y end in
    match hi with Some h => Rmin h y | None => y end
  else y.

Definition withDefault (b : bool) (d : R) (o : option R) : option R :=
  match o with Some _ => o | None => if b then Some d else None end.

(** What a Range does, in code values. *)
Definition rangeReal (r : rangeData) (x : R) : option R :=
  let mi := withDefault (r_default r) 0 (r_minIn r) in
  let ma := withDefault (r_default r) (fullScale (r_in r)) (r_maxIn r) in
  let mo := withDefault (r_default r) 0 (r_minOut r) in
  let mao := withDefault (r_default r) (fullScale (r_out r)) (r_maxOut r) in
  let k := fullScale (r_out r) / fullScale (r_in r) in
  match mi, ma, mo, mao with
  | Some mi, Some ma, Some mo, Some mao =>
      if Req_EM_T ma mi then None else Some (fx (r_clamps r) (Some mo) (Some mao) (through mi mo ma mao x))
  | Some mi, _, Some mo, _ => Some (fx (r_clamps r) (Some mo) None (mo + (x - mi) * k))
  | _, Some ma, _, Some mao => Some (fx (r_clamps r) None (Some mao) (mao + (x - ma) * k))
  | _, _, _, _ => Some (x * k)
  end.

Lemma Rmax_mult_r a b k : 0 < k -> Rmax (a * k) (b * k) = Rmax a b * k.
Proof. intro. rewrite !(Rmult_comm _ k). rewrite RmaxRmult by lra. reflexivity. Qed.
Lemma Rmin_mult_r a b k : 0 < k -> Rmin (a * k) (b * k) = Rmin a b * k.
Proof.
  intro. unfold Rmin. destruct (Rle_dec a b), (Rle_dec (a * k) (b * k)); try reflexivity; exfalso; nra.
Qed.

Lemma isRange_fun h r : isRange h r ->
  exists f, rangeFun h = Ok f /\
    forall x, f x = match rangeReal r x with Some y => Ok y | None => Err ZeroDivisionError end.
Proof.
  intros [H1 [H2 [H3 [H4 [H5 [H6 [H7 H8]]]]]]].
  unfold rangeFun, dgetE. rewrite H1, H2. cbn [bind]. eexists. split; [reflexivity|]. intro x.
  unfold rangeLimit. rewrite H5, H6, H7, H8.
  assert (Hc : match dget (h_attrs h) "style" with Some v => aval_eqb v (AStr "clamp") | None => true end = r_clamps r).
  { destruct (dget (h_attrs h) "style") as [v|].
    - destruct (aval_eqb v (AStr "clamp")) eqn:E.
      + symmetry. apply H3. right. destruct v; try discriminate. cbn in E. apply String.eqb_eq in E. now subst.
      + destruct (r_clamps r); [|reflexivity]. destruct (proj1 H3 eq_refl) as [Hx|Hx]; [discriminate|].
        injection Hx as ->. discriminate.
    - symmetry. apply H3. now left. }
  assert (Hd : match dget (h_attrs h) "defaultRange" with Some _ => true | None => false end = r_default r).
  { destruct (dget (h_attrs h) "defaultRange").
    - symmetry. apply H4. discriminate.
    - destruct (r_default r); [|reflexivity]. destruct (proj1 H4 eq_refl). reflexivity. }
  rewrite Hc, Hd. rewrite !bitDepthSize_R. clear.
  unfold rangeReal. destruct r as [dIn dOut cl df mi ma mo mao]. cbn [r_in r_out r_clamps r_default r_minIn r_maxIn r_minOut r_maxOut].
  pose proof (fullScale_pos dIn) as Pi. pose proof (fullScale_pos dOut) as Po.
  assert (E : forall d o v w, 0 < fullScale d -> v = w / fullScale d ->
    orDefault df (match o with Some x => Some (x / fullScale d) | None => None end) v =
    match withDefault df w o with Some x => Some (x / fullScale d) | None => None end).
  { intros d o v w Hd ->. destruct o; [reflexivity|]. destruct df; reflexivity. }
  change (@ndiv R realNum) with Rdiv.
  rewrite (E dIn mi n0 0 Pi) by (realize; field; lra).
  rewrite (E dIn ma n1 (fullScale dIn) Pi) by (realize; field; lra).
  rewrite (E dOut mo n0 0 Po) by (realize; field; lra).
  rewrite (E dOut mao n1 (fullScale dOut) Po) by (realize; field; lra).
  generalize (withDefault df 0 mi) (withDefault df (fullScale dIn) ma) (withDefault df 0 mo) (withDefault df (fullScale dOut) mao).
  clear E df mi ma mo mao. intros mi ma mo mao.
  unfold rangeElem. rewrite normalize_R.
  assert (D : forall a, a / fullScale dOut * fullScale dOut = a) by (intro; field; lra).
  destruct mi as [mi|], ma as [ma|], mo as [mo|], mao as [mao|]; cbn [bind]; rewrite ?denormalize_R; realize; unfold fx;
    try (f_equal; field; lra);
    try (destruct cl; [rewrite ?pymax_R, ?pymin_R; f_equal;
         rewrite <- ?Rmax_mult_r, <- ?Rmin_mult_r, ?D by lra; f_equal; field; lra | f_equal; field; lra]).
  unfold pyfdiv. realize. unfold Reqb.
  destruct (Req_EM_T (ma / fullScale dIn - mi / fullScale dIn) 0) as [E|E], (Req_EM_T ma mi) as [E'|E'].
  - reflexivity.
  - exfalso. apply E'. apply (f_equal (fun z => z * fullScale dIn)) in E. field_simplify in E; lra.
  - exfalso. apply E. subst. lra.
  - cbn [bind]. rewrite denormalize_R. realize. destruct cl.
    + rewrite pymax_R, pymin_R. f_equal. rewrite <- Rmin_mult_r, <- Rmax_mult_r, !D by lra.
      f_equal. f_equal. unfold through; field; repeat split; lra.
    + f_equal. unfold through; field; repeat split; lra.
Qed.

Lemma range_acts c h r f : isRange h r -> (forall x, rangeReal r x = Some (f x)) -> actsPerSample c (Node h BRange) f.
Proof.
  intros Hr Hf st values. destruct (isRange_fun h r Hr) as [g [E G]].
  cbn [nodeProcess]. rewrite rangeProcess_elem, E. cbn [bind].
  rewrite (mapM_Ok g f); [reflexivity|]. intros x _. rewrite G, Hf. reflexivity.
Qed.

Lemma fx_bounds lo hi y : lo <= hi -> lo <= fx true (Some lo) (Some hi) y <= hi.
Proof. intro H. unfold fx. split; [apply Rmin_glb; [assumption|apply Rmax_l]|apply Rmin_l]. Qed.

Theorem range_inside c h r values st o mo mao :
  isRange h r -> r_clamps r = true -> r_minIn r <> None -> r_maxIn r <> None ->
  r_minOut r = Some mo -> r_maxOut r = Some mao -> mo <= mao ->
  nodeProcess c (Node h BRange) values st = Ok o -> Forall (fun y => mo <= y <= mao) (po_out o).
Proof.
  intros Hr Hc H1 H2 H3 H4 Hle H. destruct (isRange_fun h r Hr) as [g [E G]].
  cbn [nodeProcess] in H. rewrite rangeProcess_elem, E in H. cbn [bind] in H.
  apply bind_ok in H. destruct H as [out [Ho H]]. apply Ok_inj in H. subst o. cbn [po_out].
  apply Forall_forall. intros y Hy. apply In_nth_error in Hy. destruct Hy as [i Hy].
  destruct (nth_error values i) as [x|] eqn:Ex.
  - destruct (mapM_nth _ _ _ _ _ Ho Ex) as [y' [E1 E2]]. assert (y' = y) by congruence. subst y'.
    rewrite G in E1. unfold rangeReal in E1. rewrite H3, H4, Hc in E1. cbn [withDefault] in E1.
    destruct (r_minIn r); [|congruence]. destruct (r_maxIn r); [|congruence]. cbn [withDefault] in E1.
    destruct (Req_EM_T _ _); [discriminate|]. apply Ok_inj in E1. subst y. now apply fx_bounds.
  - apply nth_error_None in Ex. pose proof (mapM_length _ _ _ Ho).
    assert (i < List.length out)%nat by (apply nth_error_Some; rewrite Hy; discriminate). lia.
Qed.

Section Four.
  Variables (c : Z) (h : header R) (r : rangeData) (mi ma mo mao : R).
  Hypothesis Hr : isRange h r.
  Hypothesis H1 : r_minIn r = Some mi.
  Hypothesis H2 : r_maxIn r = Some ma.
  Hypothesis H3 : r_minOut r = Some mo.
  Hypothesis H4 : r_maxOut r = Some mao.

  Lemma range_four : ma <> mi ->
    actsPerSample c (Node h BRange) (fun x => fx (r_clamps r) (Some mo) (Some mao) (through mi mo ma mao x)).
  Proof.
    intro Hne. apply (range_acts c h r); [exact Hr|]. intro x. unfold rangeReal. rewrite H1, H2, H3, H4.
    cbn [withDefault]. destruct (Req_EM_T ma mi); [contradiction|reflexivity].
  Qed.

  Theorem range_affine : r_clamps r = false -> mi <> ma ->
    actsPerSample c (Node h BRange) (through mi mo ma mao).
  Proof. intros Hc Hn. pose proof (range_four (not_eq_sym Hn)) as X. rewrite Hc in X. exact X. Qed.

  Theorem range_clamped : r_clamps r = true -> mi < ma -> mo <= mao ->
    exists f, actsPerSample c (Node h BRange) f /\ f mi = mo /\ f ma = mao /\
      (forall x, mi <= x <= ma -> f x = through mi mo ma mao x) /\
      (forall x, x <= mi -> f x = mo) /\ (forall x, ma <= x -> f x = mao) /\
      (forall x y, x <= y -> f x <= f y).
  Proof.
    intros Hc Hi Ho. eexists. split; [apply range_four; lra|]. rewrite Hc.
    assert (M : forall x y, x <= y -> through mi mo ma mao x <= through mi mo ma mao y).
    { intros x y Hxy. unfold through. apply Rplus_le_compat_l. unfold Rdiv.
      apply Rmult_le_compat_r; [left; apply Rinv_0_lt_compat; lra|]. apply Rmult_le_compat_r; lra. }
    assert (A1 : through mi mo ma mao mi = mo) by (unfold through; field; lra).
    assert (A2 : through mi mo ma mao ma = mao) by (unfold through; field; lra).
    unfold fx.
    assert (LO : forall x, x <= mi -> Rmin mao (Rmax mo (through mi mo ma mao x)) = mo).
    { intros x Hx. specialize (M x mi Hx). rewrite Rmax_left by lra. rewrite Rmin_right by lra. reflexivity. }
    assert (HI : forall x, ma <= x -> Rmin mao (Rmax mo (through mi mo ma mao x)) = mao).
    { intros x Hx. specialize (M ma x Hx). rewrite Rmax_right by lra. rewrite Rmin_left by lra. reflexivity. }
    split; [apply LO; lra|]. split; [apply HI; lra|]. split; [|split; [exact LO|split; [exact HI|]]].
    - intros x [Hx1 Hx2]. pose proof (M mi x Hx1). pose proof (M x ma Hx2).
      rewrite Rmax_right by lra. rewrite Rmin_right by lra. reflexivity.
    - intros x y Hxy. specialize (M x y Hxy). apply Rle_min_compat_l. apply Rle_max_compat_l. exact M.
  Qed.

  Theorem range_reversed : r_clamps r = true -> mi <> ma -> mao < mo ->
    actsPerSample c (Node h BRange) (fun _ => mao).
  Proof.
    intros Hc Hi Ho. pose proof (range_four (not_eq_sym Hi)) as X. rewrite Hc in X.
    intros st values. rewrite X. f_equal. apply map_ext. intro x. unfold fx. rewrite Rmin_left; [reflexivity|].
    pose proof (Rmax_l mo (through mi mo ma mao x)). lra.
  Qed.
End Four.

Theorem range_inverse c h h' r mi ma mo mao st values o :
  isRange h r -> isRange h' (exchanged r) ->
  r_minIn r = Some mi -> r_maxIn r = Some ma -> r_minOut r = Some mo -> r_maxOut r = Some mao ->
  mi < ma -> mo < mao ->
  (r_clamps r = true -> Forall (fun x => mi <= x <= ma) values) ->
  nodeProcess c (Node h BRange) values st = Ok o ->
  outcome (nodeProcess c (Node h' BRange) (po_out o) st) = Ok values.
Proof.
  intros Hr Hr' H1 H2 H3 H4 Hi Ho Hin H.
  pose proof (range_four c h r mi ma mo mao Hr H1 H2 H3 H4 ltac:(lra) st values) as A.
  pose proof (range_four c h' (exchanged r) mo mao mi ma Hr' H3 H4 H1 H2 ltac:(lra) st (po_out o)) as B.
  rewrite H in A. cbn [outcome] in A. apply Ok_inj in A. rewrite B. f_equal.
  rewrite A. rewrite map_map. rewrite <- (map_id values) at 2. apply map_ext_in. intros x Hx.
  change (r_clamps (exchanged r)) with (r_clamps r). destruct (r_clamps r) eqn:Ec.
  - specialize (Hin eq_refl). rewrite Forall_forall in Hin. specialize (Hin x Hx).
    unfold fx.
    assert (D : 0 <= (x - mi) / (ma - mi) <= 1).
    { split; [apply Rmult_le_pos; [lra|left; apply Rinv_0_lt_compat; lra]|].
      apply Rmult_le_reg_r with (ma - mi); [lra|]. unfold Rdiv. rewrite Rmult_assoc, Rinv_l by lra. lra. }
    assert (E : through mi mo ma mao x = mo + (x - mi) / (ma - mi) * (mao - mo)) by (unfold through; field; lra).
    assert (mo <= through mi mo ma mao x <= mao) by (rewrite E; nra).
    rewrite (Rmax_right mo) by lra. rewrite (Rmin_right mao) by lra.
    replace (through mo mi mao ma (through mi mo ma mao x)) with x by (unfold through; field; split; lra).
    rewrite (Rmax_right mi) by lra. rewrite (Rmin_right ma) by lra. reflexivity.
  - unfold fx, through. field. split; lra.
Qed.

(** ** Incomplete limits *)

Theorem range_only_min c h r mi mo :
  isRange h r -> r_default r = false -> r_minIn r = Some mi -> r_minOut r = Some mo ->
  (r_maxIn r = None \/ r_maxOut r = None) ->
  actsPerSample c (Node h BRange)
    (fun x => let y := mo + (x - mi) * (fullScale (r_out r) / fullScale (r_in r)) in
              if r_clamps r then Rmax mo y else y).
Proof.
  intros Hr Hd H1 H2 Hm. apply (range_acts c h r); [exact Hr|]. intro x. unfold rangeReal. rewrite H1, H2, Hd.
  cbn [withDefault]. destruct Hm as [-> | ->]; cbn [withDefault].
  - reflexivity.
  - destruct (withDefault _ _ (r_maxIn r)); reflexivity.
Qed.

Theorem range_only_max c h r ma mao :
  isRange h r -> r_default r = false -> r_maxIn r = Some ma -> r_maxOut r = Some mao ->
  (r_minIn r = None \/ r_minOut r = None) ->
  actsPerSample c (Node h BRange)
    (fun x => let y := mao + (x - ma) * (fullScale (r_out r) / fullScale (r_in r)) in
              if r_clamps r then Rmin mao y else y).
Proof.
  intros Hr Hd H1 H2 Hm. apply (range_acts c h r); [exact Hr|]. intro x. unfold rangeReal. rewrite H1, H2, Hd.
  cbn [withDefault]. destruct Hm as [-> | ->]; cbn [withDefault].
  - reflexivity.
  - destruct (withDefault _ _ (r_minIn r)); reflexivity.
Qed.

Theorem range_no_pair c h r :
  isRange h r -> r_default r = false -> (r_minIn r = None \/ r_minOut r = None) ->
  (r_maxIn r = None \/ r_maxOut r = None) ->
  actsPerSample c (Node h BRange) (fun x => x * (fullScale (r_out r) / fullScale (r_in r))).
Proof.
  intros Hr Hd H1 H2. apply (range_acts c h r); [exact Hr|]. intro x. unfold rangeReal. rewrite Hd.
  destruct H1 as [-> | ->], H2 as [-> | ->]; cbn [withDefault];
    try destruct (r_minIn r); try destruct (r_maxIn r); try destruct (r_minOut r); try destruct (r_maxOut r); reflexivity.
Qed.

Theorem range_default c h h' r values st :
  isRange h r -> r_default r = true ->
  isRange h' {| r_in := r_in r; r_out := r_out r; r_clamps := r_clamps r; r_default := false;
                r_minIn := orElse (r_minIn r) 0; r_maxIn := orElse (r_maxIn r) (fullScale (r_in r));
                r_minOut := orElse (r_minOut r) 0; r_maxOut := orElse (r_maxOut r) (fullScale (r_out r)) |} ->
  nodeProcess c (Node h BRange) values st = nodeProcess c (Node h' BRange) values st.
Proof.
  intros Hr Hd Hr'. destruct (isRange_fun h r Hr) as [f [E F]]. destruct (isRange_fun h' _ Hr') as [f' [E' F']].
  cbn [nodeProcess]. rewrite !rangeProcess_elem, E, E'. cbn [bind].
  rewrite (mapM_ext f f'); [reflexivity|]. intros x _. rewrite F, F'. unfold rangeReal.
  cbn [r_in r_out r_clamps r_default r_minIn r_maxIn r_minOut r_maxOut]. rewrite Hd.
  unfold orElse, withDefault. destruct (r_minIn r), (r_maxIn r), (r_minOut r), (r_maxOut r); reflexivity.
Qed.

Lemma getn_nth (l : list R) i : (i < List.length l)%nat -> getn l i = Ok (nth i l 0).
Proof. intro H. apply getn_some. now apply nth_error_nth'. Qed.
