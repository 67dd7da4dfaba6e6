(** Properties of process lists: C10, C12-C15, C17, C18. *)
From Flocq Require Import BinarySingleNaN.
From Coq Require Import SpecFloat.
From Verif Require Import NumF NumZ PIeee.

(** ** Concrete lists used as examples (integer arithmetic) *)
Definition z32 := AStr "32f".
(** Adds [k] to every value. *)
Definition shiftBy (k : Z) : node Z :=
  setMinOutValue (setMinInValue (newRange z32 z32 (AStr "a") (AStr "a") (AStr "noClamp") (AStr "")) 0%Z) k.
Definition swapRG : node Z :=
  setMatrix (newMatrix z32 z32 (AStr "m") (AStr "m")) [3; 3; 3] [0; 1; 0; 1; 0; 0; 0; 0; 1]%Z "string".
Definition lutEx : node Z :=
  addElement (newLUT1D z32 z32 (AStr "l") (AStr "l") (AStr "linear") (AStr "") (AStr ""))
    (EArray (mkArray [2; 1] [10; 30]%Z false false "string")).
Definition asList (ps : list (node Z)) : plist Z := PList [] [] [] ps.
Definition bypassed (n : node Z) : node Z := setAttribute n "bypass" (ABool false).

(** * C10 *)

(** A list without ExposureContrast treats every pixel on its own. *)
Theorem C10_list_pixels_independent :
  forall (T : Type) (N : Num T) c (l : plist T) st pxs buf,
    st <> 0 -> Forall (noneInside isExposureContrast) (procs_of l) -> cutInto st pxs buf -> pxs <> [] ->
    colours (listProcess c l buf st) = each (fun px => colours (listProcess c l px st)) pxs.
Proof. exact @list_pixels. Qed.
Print Assumptions C10_list_pixels_independent.

(** The same for one node. *)
Theorem C10_node_pixels_independent :
  forall (T : Type) (N : Num T) c (n : node T) st pxs buf,
    st <> 0 -> noneInside isExposureContrast n -> pxs <> [] -> cutInto st pxs buf ->
    colours (nodeProcess c n buf st) = each (fun px => colours (nodeProcess c n px st)) pxs.
Proof. exact @node_pixels. Qed.
Print Assumptions C10_node_pixels_independent.

Example C10_case :
  Forall (noneInside isExposureContrast) (procs_of (asList [shiftBy 5; Node (newHeader z32 z32 z32 z32) (BGroup [swapRG; lutEx])])) /\
  cutInto 4 [[1; 2; 3; 4]; [5; 6; 7; 8]]%Z [1; 2; 3; 4; 5; 6; 7; 8]%Z /\
  colours (listProcess 1 (asList [shiftBy 5; Node (newHeader z32 z32 z32 z32) (BGroup [swapRG; lutEx])])
             [1; 2; 3; 4; 5; 6; 7; 8]%Z 4) = Some [30; 30; 30; 9; 30; 30; 30; 13]%Z.
Proof.
  split; [repeat constructor|]. split; [split; [reflexivity|repeat constructor]|]. vm_compute. reflexivity.
Qed.

(** * C12 *)

Theorem C12_list_length :
  forall (T : Type) (N : Num T) c (l : plist T) values st o,
    listProcess c l values st = Ok o -> List.length (po_out o) = List.length values.
Proof. intros T N c l values st o H. exact (proj1 (list_length c l values st o H)). Qed.
Print Assumptions C12_list_length.

Theorem C12_node_length :
  forall (T : Type) (N : Num T) c (n : node T) values st o,
    nodeProcess c n values st = Ok o ->
    List.length (po_out o) = List.length values /\ List.length (po_in o) = List.length values.
Proof. exact @node_length. Qed.
Print Assumptions C12_node_length.

(** Values after the last whole pixel come out as zero. *)
Theorem C12_leftover_is_zero :
  forall (T : Type) (N : Num T) c h b (values : list T) st o i,
    pixelNode b -> 3 <= st -> nodeProcess c (Node h b) values st = Ok o ->
    List.length values / st * st <= i < List.length values -> nth_error (po_out o) i = Some n0.
Proof. exact @leftover_zero. Qed.
Print Assumptions C12_leftover_is_zero.

Example C12_case :
  outcome (nodeProcess 0 swapRG [1; 2; 3; 4; 5]%Z 3) = Ok [2; 1; 3; 0; 0]%Z.
Proof. reflexivity. Qed.

(** * C13 *)

(** The caller's sequence is untouched and the result is another object. *)
Theorem C13_list_leaves_input :
  forall (T : Type) (N : Num T) c (l : plist T) values st o,
    listProcess c l values st = Ok o -> po_in o = values /\ po_same o = false.
Proof. intros T N c l values st o H. exact (proj2 (list_length c l values st o H)). Qed.
Print Assumptions C13_list_leaves_input.

(** A node called directly writes its result into the caller's array
    (whole pixels; what is left over stays as it was). *)
Theorem C13_node_overwrites_input :
  forall (T : Type) (N : Num T) c h b (values : list T) st o i,
    pixelNode b -> b <> BMatrix -> 3 <= st -> nodeProcess c (Node h b) values st = Ok o ->
    (i < List.length values / st * st -> nth_error (po_in o) i = nth_error (po_out o) i) /\
    (List.length values / st * st <= i -> nth_error (po_in o) i = nth_error values i).
Proof. exact @in_place. Qed.
Print Assumptions C13_node_overwrites_input.

Theorem C13_matrix_leaves_input :
  forall (T : Type) (N : Num T) c h (values : list T) st o,
    nodeProcess c (Node h BMatrix) values st = Ok o -> po_in o = values /\ po_same o = false.
Proof. exact @matrix_leaves_input. Qed.
Print Assumptions C13_matrix_leaves_input.

Example C13_case :
  listProcess 0 (asList [shiftBy 5; lutEx]) [1; 2; 3; 4]%Z 4 =
    Ok {| po_in := [1; 2; 3; 4]%Z; po_out := [30; 30; 30; 9]%Z; po_same := false |} /\
  nodeProcess 0 lutEx [1; 2; 3; 4; 5]%Z 4 =
    Ok {| po_in := [30; 30; 30; 4; 5]%Z; po_out := [30; 30; 30; 4; 0]%Z; po_same := false |} /\
  nodeProcess 0 swapRG [1; 2; 3]%Z 3 =
    Ok {| po_in := [1; 2; 3]%Z; po_out := [2; 1; 3]%Z; po_same := false |}.
Proof. repeat split. Qed.

(** * C14 *)

(** A list is the composition of its parts, failures included. The side
    condition concerns only the two nodes at the seam. *)
Theorem C14_list_is_composition :
  forall (T : Type) (N : Num T) (L : F32Laws T) c a v e A B (values : list T) st,
    (autodesk_on c = false \/ (runs (lastNode A) /\ runs (firstNode B))) ->
    outcome (listProcess c (PList a v e (A ++ B)) values st) =
    match listProcess c (PList a v e A) values st with
    | Ok o => outcome (listProcess c (PList a v e B) (po_out o) st)
    | Err x => Err x
    end.
Proof. intros. now apply list_app. Qed.
Print Assumptions C14_list_is_composition.

(** In particular for IEEE arithmetic, whatever the C library computes. *)
Theorem C14_ieee_list_is_composition :
  forall (L : libm) c a v e A B (values : list fl) st,
    let N := ieeeNum L in
    (autodesk_on c = false \/ (runs (lastNode A) /\ runs (firstNode B))) ->
    outcome (listProcess c (PList a v e (A ++ B)) values st) =
    match listProcess c (PList a v e A) values st with
    | Ok o => outcome (listProcess c (PList a v e B) (po_out o) st)
    | Err x => Err x
    end.
Proof. intros L c a v e A B values st N H. apply (list_app (L := ieee_f32 L)); exact H. Qed.
Print Assumptions C14_ieee_list_is_composition.

Theorem C14_empty_list :
  forall (T : Type) (N : Num T) c a v e (values : list T) st,
    listProcess c (PList a v e []) values st = Ok {| po_in := values; po_out := map nf32 values; po_same := false |}.
Proof. exact @list_empty. Qed.
Print Assumptions C14_empty_list.

Example C14_case :
  runs (lastNode [shiftBy 5; bypassed swapRG; swapRG]) /\ runs (firstNode [lutEx]) /\
  outcome (listProcess 1 (asList ([shiftBy 5; bypassed swapRG; swapRG] ++ [lutEx])) [1; -5; 3]%Z 3) = Ok [10; 30; 30]%Z /\
  F32Laws Z.
Proof.
  split; [|split].
  - intros [v [H _]]. discriminate.
  - intros [v [H _]]. discriminate.
  - split; [reflexivity|]. split; reflexivity.
Qed.

(** * C15 *)

(** A bypassed node is skipped. *)
Theorem C15_bypassed_node_is_skipped :
  forall (T : Type) (N : Num T) c a v e A n B (values : list T) st,
    autodesk_on c = true -> hasBypass n ->
    runs (lastNode A) -> runs (firstNode B) ->
    (forall p q, lastNode A = Some p -> firstNode B = Some q -> getOutBitDepth p = getInBitDepth q) ->
    outcome (listProcess c (PList a v e (A ++ n :: B)) values st) =
    outcome (listProcess c (PList a v e (A ++ B)) values st).
Proof. exact @bypass_skip. Qed.
Print Assumptions C15_bypassed_node_is_skipped.

(** Without the Autodesk feature the attribute has no effect. *)
Theorem C15_bypass_without_feature :
  forall (T : Type) (N : Num T) c a v e ps (values : list T) st,
    autodesk_on c = false ->
    outcome (listProcess c (PList a v e ps) values st) =
    outcome (listProcess c (PList a v e (map dropBypass ps)) values st).
Proof. exact @bypass_ignored. Qed.
Print Assumptions C15_bypass_without_feature.

(** bypass = False (what bypass="False" in a file is read as) bypasses. *)
Example C15_case :
  hasBypass (bypassed (shiftBy 7)) /\
  outcome (listProcess 1 (asList [shiftBy 5; bypassed (shiftBy 7); shiftBy 1]) [1; 2; 3]%Z 3) = Ok [7; 8; 9]%Z /\
  outcome (listProcess 0 (asList [shiftBy 5; bypassed (shiftBy 7); shiftBy 1]) [1; 2; 3]%Z 3) = Ok [14; 15; 16]%Z.
Proof. split; [|split; reflexivity]. exists (ABool false). split; [reflexivity|discriminate]. Qed.

(** * C17 *)

Theorem C17_group_is_inline :
  forall (T : Type) (N : Num T) c a v e A h gs B (values : list T) st,
    (autodesk_on c = true \/ Forall (fun n => ~ hasBypass n) gs) ->
    ~ hasBypass (Node h (BGroup gs)) ->
    runs (lastNode A) -> runs (firstNode gs) -> runs (lastNode gs) -> runs (firstNode B) ->
    outcome (listProcess c (PList a v e (A ++ Node h (BGroup gs) :: B)) values st) =
    outcome (listProcess c (PList a v e (A ++ gs ++ B)) values st).
Proof. exact @group_inline. Qed.
Print Assumptions C17_group_is_inline.

Definition groupOf (gs : list (node Z)) : node Z := Node (newHeader z32 z32 z32 z32) (BGroup gs).

Example C17_case :
  ~ hasBypass (groupOf [shiftBy 5; bypassed swapRG; swapRG]) /\
  outcome (listProcess 1 (asList ([shiftBy 1] ++ groupOf [shiftBy 5; bypassed swapRG; swapRG] :: [lutEx])) [1; -6; 3]%Z 3)
    = Ok [10; 30; 30]%Z.
Proof. split; [intros [v [H _]]; discriminate|reflexivity]. Qed.

(** Not so with the feature off: the Group still skips, the list does not
    (IEEE arithmetic, any C library). *)
Theorem C17_group_is_inline_without_feature_refuted :
  forall L : libm, let N := ieeeNum L in
  exists c (gs : list (node fl)) values st h,
    autodesk_on c = false /\ ~ hasBypass (Node h (BGroup gs)) /\ runs (firstNode gs) /\ runs (lastNode gs) /\
    outcome (listProcess c (PList [] [] [] [Node h (BGroup gs)]) values st) <>
    outcome (listProcess c (PList [] [] [] gs) values st).
Proof.
  intros L N.
  pose (shiftF := fun k : Z =>
    setMinOutValue (setMinInValue (newRange z32 z32 (AStr "a") (AStr "a") (AStr "noClamp") (AStr "")) n0) (nofZ k) : node fl).
  exists 0%Z, [shiftF 1%Z; setAttribute (shiftF 7%Z) "bypass" (ABool false); shiftF 1%Z], [n1], 1, (newHeader z32 z32 z32 z32).
  split; [reflexivity|]. split; [intros [v [H _]]; discriminate|].
  split; [intros [v [H _]]; discriminate|]. split; [intros [v [H _]]; discriminate|].
  intro H. apply (f_equal (fun r => match r with Ok [x] => B2SF x | _ => S754_nan end)) in H.
  vm_compute in H. discriminate.
Qed.
Print Assumptions C17_group_is_inline_without_feature_refuted.

(** * C18 *)

Theorem C18_resolved_reference :
  forall (T : Type) (N : Num T) c h w l (values : list T) st,
    nodeProcess c (Node h (BReference w (Some l))) values st = listProcess c l values st.
Proof. exact @reference_resolved. Qed.
Print Assumptions C18_resolved_reference.

Theorem C18_missing_reference_is_silent :
  forall (T : Type) (N : Num T) c h w (values : list T) st,
    nodeProcess c (Node h (BReference w None)) values st
    = Ok {| po_in := values; po_out := values; po_same := true |}.
Proof. exact @reference_missing. Qed.
Print Assumptions C18_missing_reference_is_silent.

Example C18_case :
  outcome (listProcess 0 (asList [Node (newHeader z32 z32 z32 z32) (BReference false (Some (asList [shiftBy 5]))); shiftBy 1])
             [1; 2; 3]%Z 3) = Ok [7; 8; 9]%Z.
Proof. reflexivity. Qed.
