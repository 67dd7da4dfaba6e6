(** Results of a table stay between its smallest and largest entries, in IEEE arithmetic (C96). *)
From Coq Require Import List String ZArith Lia Reals Lra.
From Flocq Require Import Core BinarySingleNaN.
From Verif Require Import PBase SpecBounds PIeeeArith PBounds PIdentityCases PBoundsCases PBoundsOrder PBoundsAny SpecEdges PEdges.
From Verif Require Thm_Identity.
Import ListNotations.
Local Open Scope string_scope.
Local Open Scope list_scope.
Local Open Scope R_scope.

(** A linear LUT1D, for every finite input of moderate size, in range or not: rounding never
    takes a channel below [lo] or above [hi] if all its entries are between these float32
    numbers. Inputs at or below zero give the first entry itself, inputs at or above full scale
    the last. *)
Theorem C96_lut1d :
  forall (L : libm), let N := ieeeNum L in
  forall c (h : header fl) dIn a n,
    isLinearLUT h dIn a n -> (Z.of_nat n <= 2 ^ 53)%Z ->
    exists f, actsPerChannel c (Node h BLUT1D) f /\
      forall ch x, (ch < 3)%nat -> is_finite x = true -> Rabs (B2R x) <= bpow radix2 126 ->
        (forall lo hi, isSingle lo -> isSingle hi -> (forall k, (k < n)%nat -> liesBetween lo hi (entry1D a k ch)) -> liesBetween lo hi (f ch x)) /\
        (B2R x <= 0 -> isSingle (entry1D a 0 ch) -> sameNumber (entry1D a 0 ch) (f ch x)) /\
        (fullScale dIn <= B2R x -> isSingle (entry1D a (n - 1) ch) -> sameNumber (entry1D a (n - 1) ch) (f ch x)).
Proof. exact lut1d_bounds. Qed.
Print Assumptions C96_lut1d.

(** A LUT3D with either interpolation, for every input: large, infinite and NaN too. *)
Theorem C96_lut3d :
  forall (L : libm), let N := ieeeNum L in
  forall c (h : header fl) tet dIn a n,
    isCube h (kindOf tet) dIn a n -> (2 <= n)%nat -> (Z.of_nat n <= 2 ^ 53)%Z ->
    exists F, actsPerColour c (Node h BLUT3D) F /\
      forall ch lo hi, (ch < 3)%nat -> isSingle lo -> isSingle hi ->
        (forall i j k, (i < n)%nat -> (j < n)%nat -> (k < n)%nat -> liesBetween lo hi (entry3D a n i j k ch)) ->
        forall r g b, liesBetween lo hi (component ch (F r g b)).
Proof. exact lut3d_any. Qed.
Print Assumptions C96_lut3d.

(** Outside its range a LUT3D holds the colour of its edge: NaN, minus infinity and numbers at or
    below zero all act like zero, infinity and numbers at or above full scale like full scale,
    channel by channel. *)
Theorem C96_outside :
  forall (L : libm), let N := ieeeNum L in
  forall c (h : header fl) tet dIn a n,
    isCube h (kindOf tet) dIn a n ->
    exists F, actsPerColour c (Node h BLUT3D) F /\
      forall r g b r' g' b', sameInput (fullScale dIn) r r' -> sameInput (fullScale dIn) g g' -> sameInput (fullScale dIn) b b' -> F r g b = F r' g' b'.
Proof. exact lut3d_edges. Qed.
Print Assumptions C96_outside.
Example C96_outside_case (L : libm) : let N := ieeeNum L in
  sameInput (fullScale (AStr "16f")) B754_nan (B754_zero false) /\ sameInput (fullScale (AStr "16f")) (B754_infinity true) (B754_zero false) /\
  sameInput (fullScale (AStr "16f")) (B754_infinity false) (nofZ 2) /\ ~ sameInput (fullScale (AStr "16f")) (B754_zero false) (nofZ 1).
Proof. exact (edge_inputs L). Qed.

(** So a list that ends with a LUT3D gives only numbers between [lo] and [hi], which enclose 0 and
    the table, whatever its other nodes do (0 is what an incomplete last pixel becomes). *)
Theorem C96_list_end :
  forall (L : libm), let N := ieeeNum L in
  forall c a0 v0 e0 A (h : header fl) tet dIn a n lo hi values o,
    isCube h (kindOf tet) dIn a n -> (2 <= n)%nat -> (Z.of_nat n <= 2 ^ 53)%Z ->
    autodesk_on c = false \/ ~ hasBypass (Node h BLUT3D) ->
    isSingle lo -> isSingle hi -> B2R lo <= 0 <= B2R hi ->
    (forall i j k ch, (i < n)%nat -> (j < n)%nat -> (k < n)%nat -> (ch < 3)%nat -> liesBetween lo hi (entry3D a n i j k ch)) ->
    listProcess c (PList a0 v0 e0 (A ++ [Node h BLUT3D])) values 3 = Ok o -> Forall (liesBetween lo hi) (po_out o).
Proof. exact list_bounds. Qed.
Print Assumptions C96_list_end.

(** A channel of a LUT1D with rising float32 entries keeps the order of its inputs, except
    perhaps for two results between the same two neighbouring entries. *)
Theorem C96_order :
  forall (L : libm), let N := ieeeNum L in
  forall c (h : header fl) dIn a n,
    isLinearLUT h dIn a n -> (Z.of_nat n <= 2 ^ 53)%Z ->
    exists f, actsPerChannel c (Node h BLUT1D) f /\
      forall ch, (ch < 3)%nat -> (forall k, (k < n)%nat -> isSingle (entry1D a k ch)) ->
        (forall k, (k + 1 < n)%nat -> B2R (entry1D a k ch) <= B2R (entry1D a (k + 1) ch)) ->
        forall x y, is_finite x = true -> is_finite y = true -> Rabs (B2R x) <= bpow radix2 126 -> Rabs (B2R y) <= bpow radix2 126 -> B2R x <= B2R y ->
          B2R (f ch x) <= B2R (f ch y) \/
          exists k, (k + 1 < n)%nat /\ liesBetween (entry1D a k ch) (entry1D a (k + 1) ch) (f ch x) /\ liesBetween (entry1D a k ch) (entry1D a (k + 1) ch) (f ch y).
Proof. exact lut1d_order. Qed.
Print Assumptions C96_order.

(** Inputs in range that are two steps of the table apart are never swapped. *)
Theorem C96_steps :
  forall (L : libm), let N := ieeeNum L in
  forall c (h : header fl) dIn a n,
    isLinearLUT h dIn a n -> (2 <= n)%nat -> (Z.of_nat n <= 2 ^ 22)%Z ->
    exists f, actsPerChannel c (Node h BLUT1D) f /\
      forall ch, (ch < 3)%nat -> (forall k, (k < n)%nat -> isSingle (entry1D a k ch)) ->
        (forall k, (k + 1 < n)%nat -> B2R (entry1D a k ch) <= B2R (entry1D a (k + 1) ch)) ->
        forall x y, is_finite x = true -> is_finite y = true -> 0 <= B2R x -> B2R y <= fullScale dIn ->
          B2R x + 2 * (fullScale dIn / IZR (Z.of_nat n - 1)) <= B2R y -> B2R (f ch x) <= B2R (f ch y).
Proof. exact lut1d_steps. Qed.
Print Assumptions C96_steps.

(** For inputs in range it is enough that the entries within two steps of the input are between
    [lo] and [hi]: entries further away never matter. *)
Theorem C96_lut1d_local :
  forall (L : libm), let N := ieeeNum L in
  forall c (h : header fl) dIn a n,
    isLinearLUT h dIn a n -> (Z.of_nat n <= 2 ^ 22)%Z ->
    exists f, actsPerChannel c (Node h BLUT1D) f /\
      forall ch x lo hi, (ch < 3)%nat -> is_finite x = true -> 0 <= B2R x <= fullScale dIn -> isSingle lo -> isSingle hi ->
        (forall k, (k < n)%nat -> Rabs (INR k - B2R x / fullScale dIn * INR (n - 1)) <= 2 -> liesBetween lo hi (entry1D a k ch)) ->
        liesBetween lo hi (f ch x).
Proof. exact lut1d_local. Qed.
Print Assumptions C96_lut1d_local.

Theorem C96_lut3d_local :
  forall (L : libm), let N := ieeeNum L in
  forall c (h : header fl) tet dIn a n,
    isCube h (kindOf tet) dIn a n -> (2 <= n)%nat -> (Z.of_nat n <= 2 ^ 22)%Z ->
    exists F, actsPerColour c (Node h BLUT3D) F /\
      forall ch r g b lo hi, (ch < 3)%nat -> is_finite r = true -> is_finite g = true -> is_finite b = true ->
        0 <= B2R r <= fullScale dIn -> 0 <= B2R g <= fullScale dIn -> 0 <= B2R b <= fullScale dIn -> isSingle lo -> isSingle hi ->
        (forall i j k, (i < n)%nat -> (j < n)%nat -> (k < n)%nat ->
          Rabs (INR i - B2R r / fullScale dIn * INR (n - 1)) <= 2 -> Rabs (INR j - B2R g / fullScale dIn * INR (n - 1)) <= 2 ->
          Rabs (INR k - B2R b / fullScale dIn * INR (n - 1)) <= 2 -> liesBetween lo hi (entry3D a n i j k ch)) ->
        liesBetween lo hi (component ch (F r g b)).
Proof. exact lut3d_local. Qed.
Print Assumptions C96_lut3d_local.

(** The bounds must be float32 numbers: a table filled with the double nearest to a third, built
    in a program, gives a larger number. *)
Theorem C96_doubles_refuted :
  forall (L : libm), let N := ieeeNum L in
  forall c, exists f, actsPerChannel c (Node (thirdLUT L) BLUT1D) f /\
    exists x, isSingle x /\ 0 <= B2R x <= 1 /\ ~ liesBetween (entry1D (thirdTable L) 0 0) (entry1D (thirdTable L) 1 0) (f 0%nat x).
Proof. exact third_left. Qed.
Print Assumptions C96_doubles_refuted.
(** Its two entries are the same double. *)
Example C96_doubles_refuted_case (L : libm) : let N := ieeeNum L in
  isLinearLUT (thirdLUT L) (AStr "32f") (thirdTable L) 2 /\ entry1D (thirdTable L) 0 0 = entry1D (thirdTable L) 1 0 /\
  is_finite (entry1D (thirdTable L) 0 0) = true.
Proof. split; [exact (third_linear L)|]. split; [reflexivity|vm_compute; reflexivity]. Qed.

(** The identity tables of C84 have all entries between 0 and 1. *)
Example C96_lut1d_case (L : libm) : let N := ieeeNum L in
  isLinearLUT (identityLUT L (2 ^ 4)) (AStr "32f") (identityTable L (2 ^ 4)) 17 /\ isSingle (B754_zero false) /\ isSingle (nofZ 1) /\
  forall k, (k < 17)%nat -> liesBetween (B754_zero false) (nofZ 1) (entry1D (identityTable L (2 ^ 4)) k 0).
Proof.
  split; [exact (identityLUT_linear L 16)|]. split; [exact single_zero|]. split; [exact (single_one L)|].
  intros k Hk. apply (fraction_between L 4 k); [|cbn; lia]. apply (Thm_Identity.C84_lut1d_case L 4); cbn; lia.
Qed.
Example C96_lut3d_case (L : libm) tet : let N := ieeeNum L in
  isCube (snd (Thm_Identity.sameCube L tet)) (kindOf tet) (AStr "16f") (fst (Thm_Identity.sameCube L tet)) 3 /\
  forall x y z, (x < 3)%nat -> (y < 3)%nat -> (z < 3)%nat -> liesBetween (B754_zero false) (nofZ 1) (entry3D (fst (Thm_Identity.sameCube L tet)) 3 x y z 0).
Proof.
  destruct (Thm_Identity.C84_lut3d_case L tet) as (H1 & _ & H2). split; [exact H1|]. intros x y z Hx Hy Hz.
  apply (fraction_between L 1 (component 0 (x, y, z))); [apply H2|]; cbn; lia.
Qed.
(** The same table rises. *)
Example C96_order_case (L : libm) : let N := ieeeNum L in
  (forall k, (k < 17)%nat -> isSingle (entry1D (identityTable L (2 ^ 4)) k 0)) /\
  forall k, (k + 1 < 17)%nat -> B2R (entry1D (identityTable L (2 ^ 4)) k 0) <= B2R (entry1D (identityTable L (2 ^ 4)) (k + 1) 0).
Proof.
  assert (E : forall k, (k < 17)%nat -> evenEntry 4 k (@entry1D fl (ieeeNum L) (identityTable L (2 ^ 4)) k 0)) by (intros k Hk; apply (Thm_Identity.C84_lut1d_case L 4); cbn; lia).
  split; intros k Hk.
  - apply (fraction_single 4 k); [apply E; lia|lia|cbn; lia].
  - apply (fraction_rising 4 k); apply E; lia.
Qed.
(** For this table of 17 entries two steps are an eighth of the range. *)
Example C96_steps_case (L : libm) : let N := ieeeNum L in
  isLinearLUT (identityLUT L (2 ^ 4)) (AStr "32f") (identityTable L (2 ^ 4)) 17 /\ fullScale (AStr "32f") = 1 /\
  is_finite (nofZ 0 : fl) = true /\ is_finite (nofZ 1 : fl) = true /\ B2R (nofZ 0) + 2 * (1 / IZR (Z.of_nat 17 - 1)) <= B2R (nofZ 1) /\ B2R (nofZ 1) <= 1.
Proof.
  cbv zeta. split; [exact (identityLUT_linear L 16)|]. split; [reflexivity|].
  destruct (ofZ_exact L 0) as [F0 E0]; [lia|]. destruct (ofZ_exact L 1) as [F1 E1]; [lia|].
  split; [exact F0|]. split; [exact F1|]. rewrite E0, E1. change (Z.of_nat 17 - 1)%Z with 16%Z. lra.
Qed.
(** At the input 0 the entries within two steps are those of 0, 1/16 and 1/8. *)
Example C96_lut1d_local_case (L : libm) : let N := ieeeNum L in
  let e := fun k => entry1D (identityTable L (2 ^ 4)) k 0 in
  isSingle (e 0%nat) /\ isSingle (e 2%nat) /\ B2R (e 2%nat) = 2 / 16 /\
  forall k, (k < 17)%nat -> Rabs (INR k - 0 / 1 * INR (17 - 1)) <= 2 -> liesBetween (e 0%nat) (e 2%nat) (e k).
Proof.
  cbv zeta.
  assert (E : forall k, (k < 17)%nat -> evenEntry 4 k (@entry1D fl (ieeeNum L) (identityTable L (2 ^ 4)) k 0)) by (intros k Hk; apply (Thm_Identity.C84_lut1d_case L 4); cbn; lia).
  pose proof (E 0%nat ltac:(lia)) as E0. pose proof (E 2%nat ltac:(lia)) as E2.
  split; [apply (fraction_single 4 0); [exact E0|lia|cbn; lia]|]. split; [apply (fraction_single 4 2); [exact E2|lia|cbn; lia]|].
  split; [destruct E2 as [_ E2]; rewrite E2; cbn; lra|].
  intros k Hk Hd. assert (K : (k <= 2)%nat).
  { apply INR_le. replace (INR k - 0 / 1 * INR (17 - 1)) with (INR k) in Hd by (unfold Rdiv; ring). rewrite Rabs_pos_eq in Hd by apply pos_INR. cbn; lra. }
  pose proof (fraction_rising 4 0 _ _ (E 0%nat ltac:(lia)) (E 1%nat ltac:(lia))). pose proof (fraction_rising 4 1 _ _ (E 1%nat ltac:(lia)) (E 2%nat ltac:(lia))).
  destruct k as [|[|[|k]]]; try lia; (split; [apply (E _ Hk)|lra]).
Qed.
(** The cube above, on a pixel of NaN, infinity and minus infinity. *)
Example C96_list_end_case (L : libm) tet : let N := ieeeNum L in
  let h := snd (Thm_Identity.sameCube L tet) in let a := fst (Thm_Identity.sameCube L tet) in
  isCube h (kindOf tet) (AStr "16f") a 3 /\ ~ hasBypass (Node h BLUT3D) /\
  (forall i j k ch, (i < 3)%nat -> (j < 3)%nat -> (k < 3)%nat -> (ch < 3)%nat -> liesBetween (B754_zero false) (nofZ 1) (entry3D a 3 i j k ch)) /\
  exists o, listProcess 0 (PList [] [] [] [Node h BLUT3D]) [B754_nan; B754_infinity false; B754_infinity true] 3 = Ok o.
Proof.
  cbv zeta. destruct (Thm_Identity.C84_lut3d_case L tet) as (H1 & _ & H2). split; [exact H1|].
  assert (NB : ~ hasBypass (Node (snd (Thm_Identity.sameCube L tet)) BLUT3D)) by (destruct tet; intros [v [H _]]; discriminate H).
  split; [exact NB|]. split.
  - intros i j k ch Hi Hj Hk Hch. apply (fraction_between L 1 (component ch (i, j, k))); [apply H2; cbn; lia|].
    destruct ch as [|[|[|ch]]]; cbn; lia.
  - exact (cube_runs L 0 [] [] [] _ tet _ _ 3 _ H1 NB).
Qed.
