(** Matrix nodes and runs of bypassed nodes: C07, C08, C16. *)
From Coq Require Import Reals Lra.
From Verif Require Import PMatrix PBypass.
Local Open Scope R_scope.

(** * C07 *)

Theorem C07_matrix_is_affine :
  forall c h n coef offset st,
    isMatrix h n coef offset -> (1 <= st)%nat -> (n <= st)%nat ->
    actsPerPixel c (Node h BMatrix) st (affine n coef offset).
Proof. exact matrix_acts. Qed.
Print Assumptions C07_matrix_is_affine.

(** Three rows of three coefficients and an offset. *)
Definition mVals : list R := [1; 2; 0; 5;  0; 1; 0; 0;  -1; 0; 3; 7].
Definition mNode : node R := setMatrix (newMatrix (AStr "8i") (AStr "16f") (AStr "m") (AStr "m")) [3; 4; 3]%nat mVals "string".
Example C07_data : isMatrix (nheader mNode) 3 (fun i j => nth (i * 4 + j) mVals 0) (fun i => nth (i * 4 + 3) mVals 0).
Proof.
  exists (mkArray [3; 4; 3]%nat mVals false false "string"), 4%nat, [3%nat].
  split; [split; eexists; reflexivity|]. split; [reflexivity|]. split; [reflexivity|]. split; [reflexivity|].
  split; [intros; reflexivity|]. right. split; [reflexivity|intros; reflexivity].
Qed.
(** Two RGBA pixels. *)
Example C07_case : outcome (nodeProcess 0 mNode [1; 2; 3; 9; 0; 0; 1; 8] 4) = Ok [10; 2; 15; 9; 5; 0; 10; 8].
Proof.
  change mNode with (Node (nheader mNode) (BMatrix (T := R))). rewrite (C07_matrix_is_affine 0 _ _ _ _ 4 C07_data) by lia.
  cbn. repeat (f_equal; try lra).
Qed.

(** * C08 *)

Theorem C08_matrices_compose :
  forall c hA hB hC n cA oA cB oB cC oC st values o,
    isMatrix hA n cA oA -> isMatrix hB n cB oB -> isMatrix hC n cC oC ->
    (forall i j, (i < n)%nat -> (j < n)%nat -> cC i j = sumTo n (fun k => cB i k * cA k j)) ->
    (forall i, (i < n)%nat -> oC i = sumTo n (fun k => cB i k * oA k) + oB i) ->
    (1 <= st)%nat -> (n <= st)%nat ->
    nodeProcess c (Node hA BMatrix) values st = Ok o ->
    outcome (nodeProcess c (Node hB BMatrix) (po_out o) st) = outcome (nodeProcess c (Node hC BMatrix) values st).
Proof. exact matrix_product. Qed.
Print Assumptions C08_matrices_compose.

Theorem C08_identity_matrix :
  forall c h n coef offset st values,
    isMatrix h n coef offset -> (forall i j, (i < n)%nat -> (j < n)%nat -> coef i j = if Nat.eqb i j then 1 else 0) ->
    (forall i, (i < n)%nat -> offset i = 0) ->
    (1 <= st)%nat -> (n <= st)%nat -> (List.length values mod st = 0)%nat ->
    outcome (nodeProcess c (Node h BMatrix) values st) = Ok values.
Proof. exact matrix_identity. Qed.
Print Assumptions C08_identity_matrix.

(** A swap of the first two channels with an offset, twice: the product is the
    identity matrix with offset (5, 5, 0). *)
Definition swapVals : list R := [0; 1; 0; 5;  1; 0; 0; 0;  0; 0; 1; 0].
Definition twiceVals : list R := [1; 0; 0; 5;  0; 1; 0; 5;  0; 0; 1; 0].
Definition m34 (vals : list R) : node R := setMatrix (newMatrix (AStr "16f") (AStr "16f") (AStr "m") (AStr "m")) [3; 4; 3]%nat vals "string".
Lemma m34_data vals : List.length vals = 12%nat ->
  isMatrix (nheader (m34 vals)) 3 (fun i j => nth (i * 4 + j) vals 0) (fun i => nth (i * 4 + 3) vals 0).
Proof.
  intro H. exists (mkArray [3; 4; 3]%nat vals false false "string"), 4%nat, [3%nat].
  split; [split; eexists; reflexivity|]. split; [reflexivity|]. split; [reflexivity|]. split; [cbn [mkArray a_vals]; lia|].
  split; [intros; reflexivity|]. right. split; [reflexivity|intros; reflexivity].
Qed.
Example C08_case :
  (forall i j, (i < 3)%nat -> (j < 3)%nat ->
     nth (i * 4 + j) twiceVals 0 = sumTo 3 (fun k => nth (i * 4 + k) swapVals 0 * nth (k * 4 + j) swapVals 0)) /\
  (forall i, (i < 3)%nat ->
     nth (i * 4 + 3) twiceVals 0 = sumTo 3 (fun k => nth (i * 4 + k) swapVals 0 * nth (k * 4 + 3) swapVals 0) + nth (i * 4 + 3) swapVals 0) /\
  exists o, nodeProcess 0 (m34 swapVals) [1; 2; 3] 3 = Ok o /\ outcome (nodeProcess 0 (m34 swapVals) (po_out o) 3) = Ok [6; 7; 3].
Proof.
  assert (A : forall i j, (i < 3)%nat -> (j < 3)%nat ->
     nth (i * 4 + j) twiceVals 0 = sumTo 3 (fun k => nth (i * 4 + k) swapVals 0 * nth (k * 4 + j) swapVals 0)).
  { intros [|[|[|i]]] [|[|[|j]]] Hi Hj; try (exfalso; lia); cbn; lra. }
  assert (B : forall i, (i < 3)%nat ->
     nth (i * 4 + 3) twiceVals 0 = sumTo 3 (fun k => nth (i * 4 + k) swapVals 0 * nth (k * 4 + 3) swapVals 0) + nth (i * 4 + 3) swapVals 0).
  { intros [|[|[|i]]] Hi; try (exfalso; lia); cbn; lra. }
  split; [exact A|]. split; [exact B|].
  pose proof (C07_matrix_is_affine 0 _ _ _ _ 3 (m34_data swapVals eq_refl) ltac:(lia) ltac:(lia) [1; 2; 3]) as E.
  apply outcome_ok in E. destruct E as [o [E _]]. exists o. split; [exact E|].
  change (m34 swapVals) with (Node (nheader (m34 swapVals)) (BMatrix (T := R))).
  rewrite (C08_matrices_compose 0 _ _ _ 3 _ _ _ _ _ _ 3 [1; 2; 3] o (m34_data swapVals eq_refl) (m34_data swapVals eq_refl)
             (m34_data twiceVals eq_refl) A B ltac:(lia) ltac:(lia) E).
  rewrite (C07_matrix_is_affine 0 _ _ _ _ 3 (m34_data twiceVals eq_refl)) by lia. cbn. repeat (f_equal; try lra).
Qed.

(** * C16 *)

Theorem C16_bypassed_run_in_list :
  forall c a v e A p bs q B (values : list R) st,
    autodesk_on c = true -> bs <> [] -> Forall hasBypass bs -> agreeing (p :: bs ++ [q]) ->
    outcome (listProcess c (PList a v e (A ++ p :: bs ++ q :: B)) values st) =
    outcome (listProcess c (PList a v e (A ++ p :: rescale (getOutBitDepth p) (getInBitDepth q) :: q :: B)) values st).
Proof. exact skipped_run. Qed.
Print Assumptions C16_bypassed_run_in_list.

Theorem C16_bypassed_run_in_group :
  forall c h A p bs q B (values : list R) st,
    bs <> [] -> Forall hasBypass bs -> agreeing (p :: bs ++ [q]) ->
    outcome (nodeProcess c (Node h (BGroup (A ++ p :: bs ++ q :: B))) values st) =
    outcome (nodeProcess c (Node h (BGroup (A ++ p :: rescale (getOutBitDepth p) (getInBitDepth q) :: q :: B))) values st).
Proof. exact skipped_run_group. Qed.
Print Assumptions C16_bypassed_run_in_group.

(** The change of depth is linear and does not clamp. *)
Theorem C16_rescale_is_linear :
  forall c dIn dOut, actsPerSample c (rescale dIn dOut) (fun x => x / fullScale dIn * fullScale dOut).
Proof. exact rescale_linear. Qed.
Print Assumptions C16_rescale_is_linear.

(** Two bypassed matrices (8i to 10i to 12i) between an 8i and a 12i node. *)
Definition skipped (dIn dOut : string) : node R :=
  setAttribute (newMatrix (AStr dIn) (AStr dOut) (AStr "x") (AStr "x")) "bypass" (ABool true).
Example C16_case :
  Forall hasBypass [skipped "8i" "10i"; skipped "10i" "12i"] /\
  agreeing (rescale (AStr "16f") (AStr "8i") :: [skipped "8i" "10i"; skipped "10i" "12i"] ++ [rescale (AStr "12i") (AStr "12i")]) /\
  getOutBitDepth (rescale (AStr "16f") (AStr "8i")) = AStr "8i" /\
  510 / fullScale (AStr "8i") * fullScale (AStr "12i") = 8190.
Proof.
  split; [|split; [|split]].
  - repeat constructor; exists (ABool true); (split; [reflexivity|discriminate]).
  - cbn. auto.
  - reflexivity.
  - cbn. lra.
Qed.
