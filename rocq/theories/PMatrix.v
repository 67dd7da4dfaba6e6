(** Matrix in exact arithmetic. *)
From Coq Require Import Lra.
From Verif Require Export PRange.
Local Open Scope R_scope.

Lemma sumTo_ext n f g : (forall j, (j < n)%nat -> f j = g j) -> sumTo n f = sumTo n g.
Proof. induction n as [|n IH]; intro H; cbn [sumTo]; [reflexivity|]. rewrite IH, H by (intros; try apply H; lia). reflexivity. Qed.
Lemma sumTo_plus n f g : sumTo n (fun j => f j + g j) = sumTo n f + sumTo n g.
Proof. induction n as [|n IH]; cbn [sumTo]; [lra|]. rewrite IH. lra. Qed.
Lemma sumTo_scal n k f : sumTo n (fun j => k * f j) = k * sumTo n f.
Proof. induction n as [|n IH]; cbn [sumTo]; [lra|]. rewrite IH. lra. Qed.
Lemma sumTo_zero n : sumTo n (fun _ => 0) = 0.
Proof. induction n as [|n IH]; cbn [sumTo]; [reflexivity|]. rewrite IH. lra. Qed.
Lemma sumTo_swap n m (f : nat -> nat -> R) :
  sumTo n (fun i => sumTo m (fun j => f i j)) = sumTo m (fun j => sumTo n (fun i => f i j)).
Proof.
  induction n as [|n IH]; cbn [sumTo].
  - now rewrite sumTo_zero.
  - rewrite IH. now rewrite <- sumTo_plus.
Qed.
Lemma sumTo_pick n k f : (k < n)%nat -> (forall j, (j < n)%nat -> j <> k -> f j = 0) -> sumTo n f = f k.
Proof.
  induction n as [|n IH]; intros Hk H; [lia|]. cbn [sumTo].
  destruct (Nat.eq_dec k n) as [->|Hn].
  - rewrite (sumTo_ext n f (fun _ => 0)); [rewrite sumTo_zero; lra|]. intros; apply H; lia.
  - rewrite IH; [rewrite (H n) by lia; lra|lia|]. intros; apply H; lia.
Qed.


Lemma firstn_S_nth {A} (l : list A) m x : nth_error l m = Some x -> firstn (S m) l = firstn m l ++ [x].
Proof.
  revert m. induction l as [|y t IH]; intros [|m] H; try discriminate.
  - injection H as ->. reflexivity.
  - cbn [firstn app]. f_equal. now apply IH.
Qed.

Lemma affine_length n c o px : List.length (affine n c o px) = List.length px.
Proof. apply indexed_length. Qed.

Lemma amul_R dt a x : amul dt a x = a * x.
Proof. destruct dt; reflexivity. Qed.

Lemma row_R a n cols i coef offset (px : list R) :
  (n * cols <= List.length (a_vals a))%nat ->
  (forall i j, (i < n)%nat -> (j < n)%nat -> nth (i * cols + j) (a_vals a) 0 = coef i j) ->
  ((cols = n /\ forall i, (i < n)%nat -> offset i = 0) \/
     (cols = n + 1)%nat /\ forall i, (i < n)%nat -> nth (i * cols + n) (a_vals a) 0 = offset i) ->
  (i < n)%nat -> (n <= List.length px)%nat ->
  matrixRow a n cols i px = Ok (sumTo n (fun j => coef i j * nth j px 0) + offset i).
Proof.
  intros Hl Hc Ho Hi Hp. unfold matrixRow.
  assert (G : forall k, (k <= n)%nat ->
    for_each (seq 0 k) (fun j acc =>
      let* m := getn (a_vals a) (j + i * cols) in
      let* v := getn px j in Ok (nf32 (nadd acc (amul (a_dt a) m v)))) n0 = Ok (sumTo k (fun j => coef i j * nth j px 0))).
  { induction k as [|k IH]; intro Hk; [reflexivity|].
    rewrite seq_S, for_each_app, IH by lia. cbn [bind for_each Nat.add].
    assert ((k + i * cols < List.length (a_vals a))%nat) by nia.
    rewrite !getn_nth by lia. cbn [bind]. rewrite amul_R. realize. rewrite Nat.add_comm, Hc by lia. reflexivity. }
  rewrite G by lia. cbn [bind].
  destruct Ho as [[-> Ho]|[-> Ho]].
  - replace (Nat.eqb n (n + 1)) with false by (symmetry; apply Nat.eqb_neq; lia). rewrite Ho by assumption. do 2 f_equal. lra.
  - rewrite Nat.eqb_refl. rewrite getn_nth by nia. cbn [bind]. realize. do 3 f_equal.
    rewrite <- Ho by assumption. f_equal. lia.
Qed.

Lemma matrixPixel_R h n coef offset a cols rest st px :
  lastArray (h_elems h) = Some a -> a_dims a = n :: cols :: rest ->
  (n * cols <= List.length (a_vals a))%nat ->
  (forall i j, (i < n)%nat -> (j < n)%nat -> nth (i * cols + j) (a_vals a) 0 = coef i j) ->
  ((cols = n /\ forall i, (i < n)%nat -> offset i = 0) \/
     (cols = n + 1)%nat /\ forall i, (i < n)%nat -> nth (i * cols + n) (a_vals a) 0 = offset i) ->
  (n <= st)%nat -> List.length px = st ->
  matrixPixel a st px = Ok (affine n coef offset px).
Proof.
  intros Ha Hd Hl Hc Ho Hn Hp. unfold matrixPixel, dim. rewrite Hd. cbn [getn nth_error bind].
  rewrite Nat.min_l by assumption.
  set (out := affine n coef offset px). assert (Hol : List.length out = st) by (unfold out; now rewrite affine_length).
  assert (Hout : forall i, (i < st)%nat -> nth_error out i =
     Some (if Nat.ltb i n then sumTo n (fun j => coef i j * nth j px 0) + offset i else nth i px 0)).
  { intros i Hi. unfold out, affine. rewrite (indexed_nth _ px i (nth i px 0)) by (apply nth_error_nth'; lia). reflexivity. }
  assert (step : forall m x r, nth_error out m = Some x ->
            setn (firstn m out ++ repeat (n0 : R) (S r)) m x = Ok (firstn (S m) out ++ repeat n0 r)).
  { intros m x r Hx. assert ((m < List.length out)%nat) by (apply nth_error_Some; congruence).
    rewrite setn_lt by (rewrite app_length, firstn_length, repeat_length; lia). f_equal.
    rewrite firstn_app, firstn_firstn, firstn_length, !Nat.min_l by lia.
    rewrite Nat.sub_diag, firstn_O, app_nil_r.
    rewrite skipn_app, firstn_length, Nat.min_l by lia. rewrite (skipn_all2 (firstn m out)) by (rewrite firstn_length; lia).
    replace (S m - m)%nat with 1%nat by lia. cbn [repeat skipn app].
    rewrite (firstn_S_nth _ m x) by assumption. rewrite <- app_assoc. reflexivity. }
  assert (G1 : forall k, (k <= n)%nat ->
    for_each (seq 0 k) (fun i o => let* s := matrixRow a n cols i px in setn o i s) (repeat n0 st) =
    Ok (firstn k out ++ repeat n0 (st - k))).
  { induction k as [|k IH]; intro Hk; [rewrite Nat.sub_0_r; reflexivity|].
    rewrite seq_S, for_each_app, IH by lia. cbn [bind for_each Nat.add].
    rewrite (row_R a n cols k coef offset px) by (assumption || lia). cbn [bind].
    replace (st - k)%nat with (S (st - S k)) by lia. rewrite step; [reflexivity|].
    rewrite Hout by lia. assert (Nat.ltb k n = true) as -> by (apply Nat.ltb_lt; lia). reflexivity. }
  rewrite G1 by lia. cbn [bind].
  assert (G2 : forall k, (n + k <= st)%nat ->
    for_each (seq n k) (fun i o => let* v := getn px i in setn o i v) (firstn n out ++ repeat n0 (st - n)) =
    Ok (firstn (n + k) out ++ repeat n0 (st - (n + k)))).
  { induction k as [|k IH]; intro Hk; [rewrite Nat.add_0_r; reflexivity|].
    rewrite seq_S, for_each_app, IH by lia. cbn [bind for_each Nat.add].
    rewrite getn_nth by lia. cbn [bind].
    replace (st - (n + k))%nat with (S (st - (n + S k))) by lia. rewrite step.
    - replace (n + S k)%nat with (S (n + k)) by lia. reflexivity.
    - rewrite Hout by lia. assert (Nat.ltb (n + k) n = false) as -> by (apply Nat.ltb_ge; lia). reflexivity. }
  rewrite G2 by lia. replace (n + (st - n))%nat with st by lia. rewrite Nat.sub_diag. cbn [repeat].
  rewrite app_nil_r, firstn_all2 by lia. reflexivity.
Qed.

Theorem matrix_acts c h n coef offset st :
  isMatrix h n coef offset -> (1 <= st)%nat -> (n <= st)%nat ->
  actsPerPixel c (Node h BMatrix) st (affine n coef offset).
Proof.
  intros [a [cols [rest [Hh [Ha [Hd [Hl [Hc Ho]]]]]]]] H1 Hn values.
  cbn [nodeProcess]. rewrite matrix_form by lia. depths Hh. rewrite Ha.
  apply pixelwise_pixels; [lia|]. intros px Hp. rewrite affine_length. split; [|assumption].
  eapply matrixPixel_R; eauto.
Qed.

Lemma affine_nth n coef offset px i : (i < List.length px)%nat ->
  nth i (affine n coef offset px) 0 =
  if Nat.ltb i n then sumTo n (fun j => coef i j * nth j px 0) + offset i else nth i px 0.
Proof. intro H. apply nth_error_nth. unfold affine. now rewrite (indexed_nth _ px i (nth i px 0)) by now apply nth_error_nth'. Qed.

Lemma affine_affine n cA oA cB oB cC oC px :
  (n <= List.length px)%nat ->
  (forall i j, (i < n)%nat -> (j < n)%nat -> cC i j = sumTo n (fun k => cB i k * cA k j)) ->
  (forall i, (i < n)%nat -> oC i = sumTo n (fun k => cB i k * oA k) + oB i) ->
  affine n cB oB (affine n cA oA px) = affine n cC oC px.
Proof.
  intros Hp HC HO. apply list_eq_nth; [rewrite !affine_length; reflexivity|].
  intros i x Hx. assert (Hi : (i < List.length px)%nat) by (rewrite <- (affine_length n cC oC); apply nth_error_Some; congruence).
  rewrite <- (nth_error_nth _ _ 0 Hx). rewrite (nth_error_nth' _ 0) by (rewrite !affine_length; assumption). f_equal.
  rewrite !affine_nth by (rewrite ?affine_length; assumption).
  destruct (Nat.ltb i n) eqn:E; [|reflexivity]. apply Nat.ltb_lt in E.
  rewrite HO by assumption.
  rewrite (sumTo_ext n (fun j => cC i j * nth j px 0) (fun j => sumTo n (fun k => cB i k * (cA k j * nth j px 0)))).
  2:{ intros j Hj. rewrite HC by assumption. rewrite Rmult_comm, <- sumTo_scal. apply sumTo_ext. intros; ring. }
  rewrite sumTo_swap.
  rewrite (sumTo_ext n (fun j => cB i j * _) (fun k => sumTo n (fun j => cB i k * (cA k j * nth j px 0)) + cB i k * oA k)).
  - rewrite sumTo_plus. ring.
  - intros k Hk. rewrite affine_nth by lia. assert (Nat.ltb k n = true) as -> by now apply Nat.ltb_lt.
    rewrite sumTo_scal. ring.
Qed.


Theorem matrix_product c hA hB hC n cA oA cB oB cC oC st values o :
  isMatrix hA n cA oA -> isMatrix hB n cB oB -> isMatrix hC n cC oC ->
  (forall i j, (i < n)%nat -> (j < n)%nat -> cC i j = sumTo n (fun k => cB i k * cA k j)) ->
  (forall i, (i < n)%nat -> oC i = sumTo n (fun k => cB i k * oA k) + oB i) ->
  (1 <= st)%nat -> (n <= st)%nat ->
  nodeProcess c (Node hA BMatrix) values st = Ok o ->
  outcome (nodeProcess c (Node hB BMatrix) (po_out o) st) = outcome (nodeProcess c (Node hC BMatrix) values st).
Proof.
  intros HA HB HC Hc Ho H1 Hn H.
  pose proof (matrix_acts c hA n cA oA st HA H1 Hn values) as EA. rewrite H in EA. cbn [outcome] in EA. apply Ok_inj in EA.
  rewrite EA, (matrix_acts c hB n cB oB st HB H1 Hn), (matrix_acts c hC n cC oC st HC H1 Hn).
  f_equal. rewrite perPixel_perPixel; [|lia|].
  - apply perPixel_ext. intros px Hp. apply affine_affine; [lia|assumption|assumption].
  - intros px Hp. now rewrite affine_length.
Qed.

Theorem matrix_identity c h n coef offset st values :
  isMatrix h n coef offset -> (forall i j, (i < n)%nat -> (j < n)%nat -> coef i j = if Nat.eqb i j then 1 else 0) ->
  (forall i, (i < n)%nat -> offset i = 0) ->
  (1 <= st)%nat -> (n <= st)%nat -> (List.length values mod st = 0)%nat ->
  outcome (nodeProcess c (Node h BMatrix) values st) = Ok values.
Proof.
  intros Hm Hc Ho H1 Hn Hv. rewrite (matrix_acts c h n coef offset st Hm H1 Hn). f_equal.
  apply perPixel_id; [lia| |assumption]. intros px Hp.
  apply list_eq_nth; [apply affine_length|]. intros i x Hx.
  assert (Hi : (i < List.length px)%nat) by (apply nth_error_Some; congruence).
  rewrite (nth_error_nth' _ 0) by (rewrite affine_length; assumption). f_equal.
  rewrite affine_nth by assumption. rewrite (nth_error_nth _ _ 0 Hx).
  destruct (Nat.ltb i n) eqn:E; [|reflexivity]. apply Nat.ltb_lt in E.
  rewrite Ho, (sumTo_pick n i) by (try lia; intros j Hj Hne; rewrite Hc by lia;
    replace (Nat.eqb i j) with false by (symmetry; apply Nat.eqb_neq; lia); lra).
  rewrite Hc, Nat.eqb_refl by assumption. rewrite (nth_error_nth _ _ 0 Hx). lra.
Qed.
