(** Accessors of ProcessList, and what the depths a list declares do (C79). *)
From Coq Require Import List String ZArith Lia Reals Lra.
From Verif Require Import MBuild PBase SpecDepth PDepth.
Import ListNotations.
Local Open Scope string_scope.
Local Open Scope list_scope.

(** The depths of a list are the input depth of its first node and the output depth of
    its last one; a list without nodes has none, and setting them does nothing. *)
Theorem C79_depths_are_set :
  forall {T} (l : plist T) d, procs_of l <> [] ->
    listGetInBitDepth (listSetInBitDepth l d) = d /\ listGetOutBitDepth (listSetInBitDepth l d) = listGetOutBitDepth l /\
    listGetOutBitDepth (listSetOutBitDepth l d) = d /\ listGetInBitDepth (listSetOutBitDepth l d) = listGetInBitDepth l.
Proof. exact @depths_set. Qed.
Print Assumptions C79_depths_are_set.

Theorem C79_empty_list :
  forall {T} a v e d, let l := PList a v e [] : plist T in
    listSetInBitDepth l d = l /\ listSetOutBitDepth l d = l /\ listGetInBitDepth l = ANone /\ listGetOutBitDepth l = ANone.
Proof. exact @depths_empty. Qed.
Print Assumptions C79_empty_list.

(** getProcess gives the first node with the name. *)
Theorem C79_get_process :
  forall {T} (l : plist T) name n,
    getProcess l name = Some n <->
    exists before after, procs_of l = before ++ n :: after /\ getAttribute n "name" = name /\
      Forall (fun p => getAttribute p "name" <> name) before.
Proof. exact @find_first. Qed.
Print Assumptions C79_get_process.

(** Setting the input depth does not change what the list computes if its first node is
    skipped, a Matrix, a Group, a Reference, or a LUT with index maps. *)
Theorem C79_input_depth_unused :
  forall {T} {N : Num T} c a v e h b rest (values : list T) st d0 d,
    dget (h_attrs h) "inBitDepth" = Some d0 ->
    skipped c (Node h b) \/ readsNoDepth b \/ (isLUT b /\ indexMaps (h_elems h) <> []) ->
    outcome (listProcess c (listSetInBitDepth (PList a v e (Node h b :: rest)) d) values st) =
    outcome (listProcess c (PList a v e (Node h b :: rest)) values st).
Proof. exact @input_unread. Qed.
Print Assumptions C79_input_depth_unused.

(** The same for the output depth and the last node, which can be any LUT. *)
Theorem C79_output_depth_unused :
  forall {T} {N : Num T} c a v e h b front (values : list T) st d0 d,
    dget (h_attrs h) "outBitDepth" = Some d0 ->
    skipped c (Node h b) \/ readsNoDepth b \/ isLUT b ->
    outcome (listProcess c (listSetOutBitDepth (PList a v e (front ++ [Node h b])) d) values st) =
    outcome (listProcess c (PList a v e (front ++ [Node h b])) values st).
Proof. exact @output_unread. Qed.
Print Assumptions C79_output_depth_unused.

(** Nor do the depths matter for a Range with four limits: these are code values. *)
Theorem C79_range :
  forall c a v e h r minIn maxIn minOut maxOut d st (values : list R),
    isRange h r -> r_minIn r = Some minIn -> r_maxIn r = Some maxIn -> r_minOut r = Some minOut -> r_maxOut r = Some maxOut ->
    (minIn < maxIn)%R -> (minOut <= maxOut)%R ->
    (forall rest, outcome (listProcess c (listSetInBitDepth (PList a v e (Node h BRange :: rest)) d) values st) =
                  outcome (listProcess c (PList a v e (Node h BRange :: rest)) values st)) /\
    (forall front, outcome (listProcess c (listSetOutBitDepth (PList a v e (front ++ [Node h BRange])) d) values st) =
                   outcome (listProcess c (PList a v e (front ++ [Node h BRange])) values st)).
Proof. exact range_depths. Qed.
Print Assumptions C79_range.

(** If the first node is a curve or another LUT, the list computes from colours in the new
    depth what it computed from the same colours in the old one. *)
Theorem C79_input_depth :
  forall c a v e h b rest (values : list R) st d d',
    (3 <= st)%nat -> ~ skipped c (Node h b) -> knownCurve h b \/ knownLUT h b -> dget (h_attrs h) "inBitDepth" = Some d ->
    outcome (listProcess c (listSetInBitDepth (PList a v e (Node h b :: rest)) d') (scaledColours st (depthRatio d d') values) st) =
    outcome (listProcess c (PList a v e (Node h b :: rest)) values st).
Proof. exact input_scaled. Qed.
Print Assumptions C79_input_depth.

(** If the last node is a curve, the results are the same colours in the new depth. *)
Theorem C79_output_depth :
  forall c a v e h b front (values : list R) st d d',
    (3 <= st)%nat -> ~ skipped c (Node h b) -> knownCurve h b -> dget (h_attrs h) "outBitDepth" = Some d ->
    outcome (listProcess c (listSetOutBitDepth (PList a v e (front ++ [Node h b])) d') values st) =
    let* o := outcome (listProcess c (PList a v e (front ++ [Node h b])) values st) in Ok (scaledColours st (depthRatio d d') o).
Proof. exact output_scaled. Qed.
Print Assumptions C79_output_depth.

(** A logarithm from 10i to 8i followed by a matrix; an RGBA pixel in 12i. *)
Definition toLog (name : string) : node R := newLog (AStr "10i") (AStr "8i") (AStr "l") (AStr name) (AStr "log10").
Definition doubling : node R := setMatrix (newMatrix (AStr "8i") (AStr "8i") (AStr "m") (AStr "m")) [3; 3; 3]%nat [2; 0; 0; 0; 2; 0; 0; 0; 2]%R "string".
Definition logs : list (node R) := [toLog "a"; doubling; toLog "b"].
Example C79_case :
  let l ps := PList [] [] [] ps : plist R in
  knownCurve (nheader (toLog "a")) (nbody (toLog "a")) /\ ~ skipped 15 (toLog "a") /\
  listGetInBitDepth (l logs) = AStr "10i" /\ listGetOutBitDepth (listSetOutBitDepth (l logs) (AStr "12i")) = AStr "12i" /\
  scaledColours 4 (depthRatio (AStr "10i") (AStr "8i")) [1023; 0; 341; 1]%R = [255; 0; 85; 1]%R /\
  getProcess (l (logs ++ logs)) (AStr "b") = Some (toLog "b") /\
  outcome (listProcess 15 (listSetInBitDepth (l logs) (AStr "8i")) [255; 0; 85; 1]%R 4) = outcome (listProcess 15 (l logs) [1023; 0; 341; 1]%R 4) /\
  outcome (listProcess 15 (listSetOutBitDepth (l [doubling]) (AStr "8i")) [1; 2; 3]%R 3) = outcome (listProcess 15 (l [doubling]) [1; 2; 3]%R 3).
Proof.
  intro l. assert (K : knownCurve (nheader (toLog "a")) (nbody (toLog "a"))) by (exists (AStr "log10"); split; [reflexivity|now left]).
  assert (S : ~ skipped 15 (toLog "a")) by (intros [_ (v & E & _)]; discriminate).
  assert (Sc : scaledColours 4 (depthRatio (AStr "10i") (AStr "8i")) [1023; 0; 341; 1]%R = [255; 0; 85; 1]%R).
  { unfold scaledColours, indexed, depthRatio. cbn. repeat (f_equal; try lra). }
  split; [exact K|]. split; [exact S|]. split; [reflexivity|]. split; [reflexivity|]. split; [exact Sc|]. split; [reflexivity|]. split.
  - rewrite <- Sc. apply (C79_input_depth 15 [] [] [] (nheader (toLog "a")) (nbody (toLog "a")) [doubling; toLog "b"]); [lia|exact S|now left|reflexivity].
  - apply (C79_output_depth_unused 15 [] [] [] (nheader doubling) (nbody doubling) [] [1; 2; 3]%R 3 (AStr "8i")); [reflexivity|]. right. left. exact I.
Qed.
