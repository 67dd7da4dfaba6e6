(** Conversion of OCIO transforms. *)
From Coq Require Import Reals Lra.
From Verif Require Export SpecOcio PMatrix PLog.
Local Open Scope R_scope.

Lemma Reqb_neq x : x <> 0 -> neqb x n0 = false.
Proof. intro H. realize. destruct (Reqb x 0) eqn:E; [apply Reqb_spec in E; contradiction|reflexivity]. Qed.
Lemma Reqb_eq x : x = 0 -> neqb x n0 = true.
Proof. intro H. realize. apply Reqb_spec. exact H. Qed.


(** A list of known length as a list of entries. *)
Tactic Notation "exactly" ident(m) ident(H) integer(n) :=
  do n (let x := fresh "m" in destruct m as [|x m]; [cbn in H; lia|]);
  destruct m as [|? m]; [clear H|cbn in H; lia].

Lemma reduced_node m off :
  alphaLooksTrivial m -> (3 <= List.length off)%nat ->
  exists h, convertMatrix m off "forward" = Ok (Some (Node h BMatrix)) /\ isMatrix h 3 (cell 4 m) (offsetOf off).
Proof.
  intros [Hl [H3 [H7 [H12 [H13 H0]]]]] Ho.
  exactly m Hl 16. destruct off as [|o0 [|o1 [|o2 os]]]; try (cbn in Ho; lia).
  unfold cell in H0, H3, H7, H12, H13. cbn [nth Nat.mul Nat.add] in H0, H3, H7, H12, H13.
  unfold convertMatrix, looks3x3. cbn [isForward String.eqb Ascii.eqb Bool.eqb List.length Nat.eqb getn nth_error bind].
  rewrite (Reqb_eq _ H3), (Reqb_eq _ H7), (Reqb_eq _ H12), (Reqb_eq _ H13), (Reqb_neq _ H0).
  cbn [andb negb getn nth_error bind].
  destruct (negb (neqb o0 n0) || negb (neqb o1 n0) || negb (neqb o2 n0)) eqn:E.
  - cbn [setn bind]. eexists. split; [reflexivity|].
    eexists _, 4%nat, [3%nat]. split; [split; eexists; reflexivity|]. split; [reflexivity|]. split; [reflexivity|].
    split; [cbn; lia|]. split.
    + intros [|[|[|i]]] [|[|[|j]]] Hi Hj; try lia; reflexivity.
    + right. split; [reflexivity|]. intros [|[|[|i]]] Hi; try lia; reflexivity.
  - apply orb_false_iff in E. destruct E as [E E2]. apply orb_false_iff in E. destruct E as [E0 E1].
    apply negb_false_iff in E0, E1, E2. realize. apply Reqb_spec in E0, E1, E2. subst.
    cbn [bind]. eexists. split; [reflexivity|].
    eexists _, 3%nat, [3%nat]. split; [split; eexists; reflexivity|]. split; [reflexivity|]. split; [reflexivity|].
    split; [cbn; lia|]. split.
    + intros [|[|[|i]]] [|[|[|j]]] Hi Hj; try lia; reflexivity.
    + left. split; [reflexivity|]. intros [|[|[|i]]] Hi; try lia; reflexivity.
Qed.

Theorem ocio_reduced m off :
  alphaLooksTrivial m -> (3 <= List.length off)%nat ->
  exists n, convertMatrix m off "forward" = Ok (Some n) /\
    forall c st, (3 <= st)%nat -> actsPerPixel c n st (affine 3 (cell 4 m) (offsetOf off)).
Proof.
  intros Hm Ho. destruct (reduced_node m off Hm Ho) as [h [E Hi]]. eexists. split; [exact E|].
  intros c st Hs. apply matrix_acts; [exact Hi|lia|lia].
Qed.

(** One pixel as a buffer. *)
Lemma perPixel_one st F (px : list R) : (1 <= st)%nat -> List.length px = st -> List.length (F px) = st -> perPixel st F px = F px.
Proof.
  intros H1 Hp HF. apply list_eq_nth; [unfold perPixel; rewrite indexed_length; congruence|].
  intros i x Hx. assert (Hi : (i < st)%nat) by (rewrite <- HF; apply nth_error_Some; congruence).
  unfold perPixel. rewrite (indexed_nth _ px i (nth i px 0)) by (apply nth_error_nth'; lia).
  rewrite Hp, Nat.div_same, Nat.mul_1_l by lia.
  assert (Nat.ltb i st = true) as -> by (apply Nat.ltb_lt; lia).
  rewrite (Nat.mod_small i st), (Nat.div_small i st) by lia. f_equal.
  assert (E : pixelAt st 0 px = px) by (rewrite <- slice_pixelAt by (try lia; rewrite Hp, Nat.div_same; lia); unfold slice; rewrite Nat.mul_0_l; cbn [skipn]; apply firstn_all2; lia).
  rewrite E. apply nth_error_nth. exact Hx.
Qed.

Lemma affine4_at m o px i : List.length px = 4%nat -> (i < 4)%nat ->
  nth i (affine 4 m o px) 0 = m i 0%nat * nth 0 px 0 + m i 1%nat * nth 1 px 0 + m i 2%nat * nth 2 px 0 + m i 3%nat * nth 3 px 0 + o i.
Proof.
  intros Hp Hi. rewrite affine_nth by lia. assert (Nat.ltb i 4 = true) as -> by (apply Nat.ltb_lt; lia). cbn [sumTo]. lra.
Qed.
Lemma affine3_at m o px i : List.length px = 4%nat -> (i < 3)%nat ->
  nth i (affine 3 m o px) 0 = m i 0%nat * nth 0 px 0 + m i 1%nat * nth 1 px 0 + m i 2%nat * nth 2 px 0 + o i.
Proof.
  intros Hp Hi. rewrite affine_nth by lia. assert (Nat.ltb i 3 = true) as -> by (apply Nat.ltb_lt; lia). cbn [sumTo]. lra.
Qed.
Lemma affine3_alpha m o px : List.length px = 4%nat -> nth 3 (affine 3 m o px) 0 = nth 3 px 0.
Proof. intro Hp. rewrite affine_nth by lia. reflexivity. Qed.

Theorem ocio_reduced_exact m off :
  alphaLooksTrivial m -> (3 <= List.length off)%nat ->
  exists n, convertMatrix m off "forward" = Ok (Some n) /\
    forall c,
      (forall px, List.length px = 4%nat -> outcome (nodeProcess c n px 4) = Ok (ocioApply m off px)) <->
      (cell 4 m 2 3 = 0 /\ cell 4 m 3 2 = 0 /\ cell 4 m 3 3 = 1 /\ offsetOf off 3 = 0).
Proof.
  intros Hm Ho. destruct (ocio_reduced m off Hm Ho) as [n [E Ha]]. exists n. split; [exact E|]. intro c.
  destruct Hm as [Hl [H3 [H7 [H12 [H13 H0]]]]].
  assert (A : forall px, List.length px = 4%nat ->
            outcome (nodeProcess c n px 4) = Ok (affine 3 (cell 4 m) (offsetOf off) px)).
  { intros px Hp. rewrite (Ha c 4%nat ltac:(lia) px). f_equal. apply perPixel_one; [lia|exact Hp|now rewrite affine_length]. }
  split.
  - intro H.
    assert (P : forall px i, List.length px = 4%nat -> (i < 4)%nat ->
              nth i (affine 3 (cell 4 m) (offsetOf off) px) 0 = nth i (ocioApply m off px) 0).
    { intros px i Hp Hi. specialize (H px Hp). rewrite (A px Hp) in H. apply Ok_inj in H. now rewrite H. }
    unfold ocioApply in P.
    pose proof (P [0; 0; 0; 1] 2%nat eq_refl ltac:(lia)) as P1. rewrite affine3_at, affine4_at in P1 by (reflexivity || lia).
    pose proof (P [0; 0; 0; 0] 3%nat eq_refl ltac:(lia)) as P2. rewrite affine3_alpha, affine4_at in P2 by (reflexivity || lia).
    pose proof (P [0; 0; 1; 0] 3%nat eq_refl ltac:(lia)) as P3. rewrite affine3_alpha, affine4_at in P3 by (reflexivity || lia).
    pose proof (P [0; 0; 0; 1] 3%nat eq_refl ltac:(lia)) as P4. rewrite affine3_alpha, affine4_at in P4 by (reflexivity || lia).
    cbn [nth] in P1, P2, P3, P4. repeat split; lra.
  - intros [C1 [C2 [C3 C4]]] px Hp. rewrite (A px Hp). f_equal.
    apply list_eq_nth; [unfold ocioApply; now rewrite !affine_length|]. intros i x Hx.
    assert (Hi : (i < 4)%nat) by (rewrite <- Hp, <- (affine_length 4 (cell 4 m) (offsetOf off)); apply nth_error_Some; unfold ocioApply in Hx; congruence).
    rewrite <- (nth_error_nth _ _ 0 Hx). rewrite (nth_error_nth' _ 0) by (rewrite affine_length; lia). f_equal.
    unfold ocioApply. rewrite affine4_at by assumption.
    destruct i as [|[|[|[|i]]]]; try lia; try rewrite affine3_at by (assumption || lia); try rewrite affine3_alpha by assumption.
    + rewrite H3. lra.
    + rewrite H7. lra.
    + rewrite C1. lra.
    + rewrite H12, H13, C2, C3, C4. lra.
Qed.

(** A 4x4 matrix that is kept. *)
Lemma kept_node m off :
  List.length m = 16%nat -> ~ alphaLooksTrivial m ->
  exists h, convertMatrix m off "forward" = Ok (Some (Node h BMatrix)) /\ isMatrix h 4 (cell 4 m) (fun _ => 0) /\
    exists a, hasDepths h /\ lastArray (h_elems h) = Some a /\ a_dims a = [4; 4; 3]%nat /\ a_vals a = m.
Proof.
  intros Hl Hn. unfold convertMatrix.
  assert (E : looks3x3 m = Ok false).
  { unfold looks3x3. rewrite Hl. cbn [Nat.eqb]. rewrite !getn_nth by lia. cbn [bind]. f_equal.
    destruct (neqb (nth 3 m 0) n0) eqn:E3; [|reflexivity]. destruct (neqb (nth 7 m 0) n0) eqn:E7; [|reflexivity].
    destruct (neqb (nth 12 m 0) n0) eqn:E12; [|cbn; now rewrite !andb_false_r]. destruct (neqb (nth 13 m 0) n0) eqn:E13; [|cbn; now rewrite !andb_false_r].
    destruct (neqb (nth 0 m 0) n0) eqn:E0; [reflexivity|]. exfalso. apply Hn. realize.
    apply Reqb_spec in E3, E7, E12, E13. repeat split; try assumption. intro Z. apply Bool.diff_true_false. rewrite <- E0.
    symmetry. apply Reqb_spec. exact Z. }
  cbn [isForward String.eqb Ascii.eqb Bool.eqb]. rewrite E. cbn [bind]. unfold ocioResolution. rewrite Hl. cbn [Nat.eqb].
  eexists. split; [reflexivity|]. split.
  - eexists _, 4%nat, [3%nat]. split; [split; eexists; reflexivity|]. split; [reflexivity|]. split; [reflexivity|].
    split; [cbn [a_vals mkArray]; lia|]. split; [intros; reflexivity|]. left. split; [reflexivity|]. intros; reflexivity.
  - eexists. split; [split; eexists; reflexivity|]. repeat split; reflexivity.
Qed.

Theorem ocio_kept m off :
  List.length m = 16%nat -> ~ alphaLooksTrivial m ->
  exists n, convertMatrix m off "forward" = Ok (Some n) /\
    (forall c st, (4 <= st)%nat -> actsPerPixel c n st (affine 4 (cell 4 m) (fun _ => 0))) /\
    (forall c values, (3 <= List.length values)%nat -> nodeProcess c n values 3 = Err IndexError).
Proof.
  intros Hl Hn. destruct (kept_node m off Hl Hn) as [h [E [Hi [a [Hh [Ha [Hd Hv]]]]]]].
  eexists. split; [exact E|]. split.
  - intros c st Hs. apply matrix_acts; [exact Hi|lia|lia].
  - intros c values Hlen. cbn [nodeProcess]. rewrite matrix_form by lia. depths Hh. rewrite Ha.
    apply pixelwise_err; [lia|lia|]. intros px Hp. unfold matrixPixel, dim. rewrite Hd. cbn [getn nth_error bind Nat.min seq for_each].
    unfold matrixRow. rewrite Hv. cbn [seq for_each Nat.mul Nat.add]. rewrite !getn_nth by lia.
    destruct px as [|x0 [|x1 [|x2 [|x3 px]]]]; try (cbn in Hp; lia). reflexivity.
Qed.

Theorem ocio_small m off :
  (List.length m = 9%nat ->
     exists n, convertMatrix m off "forward" = Ok (Some n) /\
       forall c st, (3 <= st)%nat -> actsPerPixel c n st (affine 3 (cell 3 m) (fun _ => 0))) /\
  (List.length m = 12%nat ->
     exists n, convertMatrix m off "forward" = Ok (Some n) /\
       forall c st, (3 <= st)%nat -> actsPerPixel c n st (affine 3 (cell 4 m) (fun i => cell 4 m i 3))).
Proof.
  split; intro Hl; unfold convertMatrix, looks3x3, ocioResolution; rewrite Hl;
    cbn [isForward String.eqb Ascii.eqb Bool.eqb Nat.eqb bind]; eexists; (split; [reflexivity|]);
    intros c st Hs; apply matrix_acts; try lia; eexists _, _, [3%nat];
    (split; [split; eexists; reflexivity|]); (split; [reflexivity|]); (split; [reflexivity|]);
    (split; [cbn [a_vals mkArray]; lia|]); (split; [intros; reflexivity|]).
  - left. split; [reflexivity|]. intros; reflexivity.
  - right. split; [reflexivity|]. intros; reflexivity.
Qed.

Section Generic.
  Context {T : Type} {N : Num T}.

  Theorem ocio_rejected (m off : list T) d :
    (d <> "forward"%string -> convertMatrix m off d = Ok None) /\
    (~ In (List.length m) [9; 12; 16]%nat -> convertMatrix m off "forward" = Err UnboundLocalError).
  Proof.
    split.
    - intro Hd. unfold convertMatrix, isForward. apply String.eqb_neq in Hd. rewrite Hd. reflexivity.
    - intro H. unfold convertMatrix, isForward, looks3x3, ocioResolution. rewrite String.eqb_refl.
      cbn [In] in H. destruct (Nat.eqb_spec (List.length m) 16); [intuition congruence|].
      destruct (Nat.eqb_spec (List.length m) 12); [intuition congruence|].
      destruct (Nat.eqb_spec (List.length m) 9); [intuition congruence|]. reflexivity.
  Qed.

  Definition convertAll (ts : list (ocio T)) : res (list (node T)) :=
    let* ps := mapM convertTransforms ts in Ok (List.concat ps).

  Lemma convert_group ts : convertTransforms (OGroup ts) = convertAll ts.
  Proof.
    unfold convertAll. cbn [convertTransforms]. induction ts as [|t ts IH]; [reflexivity|]. cbn [mapM].
    destruct (convertTransforms t) as [a|e]; [|reflexivity]. cbn [bind]. rewrite IH.
    destruct (mapM convertTransforms ts) as [b|e]; reflexivity.
  Qed.
  Lemma convert_dropped t : dropped t -> convertTransforms t = Ok [].
  Proof.
    intros [m off d Hd|b d Hb Hb'|]; cbn [convertTransforms]; [|unfold convertLog|reflexivity].
    - rewrite (proj1 (ocio_rejected m off d) Hd). reflexivity.
    - destruct (Z.eqb_spec b 10); [contradiction|]. destruct (Z.eqb_spec b 2); [contradiction|]. reflexivity.
  Qed.
  Theorem ocio_group before t after :
    dropped t -> convertTransforms (OGroup (before ++ t :: after)) = convertTransforms (OGroup (before ++ after)).
  Proof.
    intro Hd. cbn [convertTransforms]. induction before as [|b before IH]; cbn [app].
    - rewrite (convert_dropped t Hd). cbn [bind]. match goal with |- (let* b := ?x in _) = _ => destruct x; reflexivity end.
    - rewrite IH. reflexivity.
  Qed.
End Generic.

Theorem ocio_logs c b base : (base = 10%Z /\ b = 10) \/ (base = 2%Z /\ b = 2) ->
  exists fwd inv f g, convertLog base "forward" = Some fwd /\ convertLog base "inverse" = Some inv /\
    actsPerChannel c fwd (fun _ => f) /\ actsPerChannel c inv (fun _ => g) /\
    (forall x, f x = ln (Rmax x floatMin) / ln b) /\ (forall y, g y = Rpower b y).
Proof.
  revert c b base.
  assert (S : forall style, exists h s, newLog (AStr "16f") (AStr "16f") (AStr "log") (AStr "log") (AStr style) = Node h (BLog []) /\
            isLog h [] style (AStr "16f") (AStr "16f") s).
  { intro style. eexists. exists {| lsGamma := fun _ => 6 / 10; lsWhite := fun _ => 685; lsBlack := fun _ => 95; lsHigh := fun _ => 1; lsShadow := fun _ => 0 |}.
    split; [reflexivity|]. split; [reflexivity|]. split; [reflexivity|]. split; [reflexivity|]. split; [constructor|]. intros. repeat split; reflexivity. }
  assert (K : forall c b styleL styleA,
    (b = 10 /\ styleL = "log10"%string /\ styleA = "antiLog10"%string) \/ (b = 2 /\ styleL = "log2"%string /\ styleA = "antiLog2"%string) ->
    exists f g, actsPerChannel c (newLog (AStr "16f") (AStr "16f") (AStr "log") (AStr "log") (AStr styleL)) (fun _ => f) /\
      actsPerChannel c (newLog (AStr "16f") (AStr "16f") (AStr "log") (AStr "log") (AStr styleA)) (fun _ => g) /\
      (forall x, f x = ln (Rmax x floatMin) / ln b) /\ (forall y, g y = Rpower b y)).
  { intros c b styleL styleA Hb. destruct (S styleL) as [hL [sL [EL HL]]]. destruct (S styleA) as [hA [sA [EA HA]]].
    rewrite EL, EA. destruct (log_pure c hL [] hA [] b styleL styleA _ _ sL sA Hb HL HA) as [f [g [Hf [Hg [F [G _]]]]]].
    exists f, g. split; [exact Hf|]. split; [exact Hg|]. split.
    - intro x. rewrite F. change (fullScale (AStr "16f")) with 1. unfold Rdiv. rewrite Rinv_1, !Rmult_1_r. reflexivity.
    - intro y. rewrite G. change (fullScale (AStr "16f")) with 1. unfold Rdiv. rewrite Rinv_1, !Rmult_1_r. reflexivity. }
  intros c b base [[-> ->]|[-> ->]].
  - destruct (K c 10 "log10"%string "antiLog10"%string) as [f [g [Hf [Hg [F G]]]]]; [left; auto|].
    eexists _, _, f, g. split; [reflexivity|]. split; [reflexivity|]. auto.
  - destruct (K c 2 "log2"%string "antiLog2"%string) as [f [g [Hf [Hg [F G]]]]]; [right; auto|].
    eexists _, _, f, g. split; [reflexivity|]. split; [reflexivity|]. auto.
Qed.
