(** Conversion of OCIO transforms: C66, C67. *)
From Coq Require Import Reals Lra.
From Verif Require Import POcio PLog.
Local Open Scope R_scope.

(** * C66 *)

(** A 4x4 matrix that passes the code's test becomes its upper left 3x3 part and
    the colour offsets. *)
Theorem C66_reduced :
  forall m off,
    alphaLooksTrivial m -> (3 <= List.length off)%nat ->
    exists n, convertMatrix m off "forward" = Ok (Some n) /\
      forall c st, (3 <= st)%nat -> actsPerPixel c n st (affine 3 (cell 4 m) (offsetOf off)).
Proof. exact ocio_reduced. Qed.
Print Assumptions C66_reduced.

(** That is the OCIO transform exactly when the entries the code does not look at
    are trivial. *)
Theorem C66_reduced_exact :
  forall m off,
    alphaLooksTrivial m -> (3 <= List.length off)%nat ->
    exists n, convertMatrix m off "forward" = Ok (Some n) /\
      forall c,
        (forall px, List.length px = 4%nat -> outcome (nodeProcess c n px 4) = Ok (ocioApply m off px)) <->
        (cell 4 m 2 3 = 0 /\ cell 4 m 3 2 = 0 /\ cell 4 m 3 3 = 1 /\ offsetOf off 3 = 0).
Proof. exact ocio_reduced_exact. Qed.
Print Assumptions C66_reduced_exact.

(** Any other 4x4 matrix is kept, without the offset, and cannot process RGB. *)
Theorem C66_kept :
  forall m off,
    List.length m = 16%nat -> ~ alphaLooksTrivial m ->
    exists n, convertMatrix m off "forward" = Ok (Some n) /\
      (forall c st, (4 <= st)%nat -> actsPerPixel c n st (affine 4 (cell 4 m) (fun _ => 0))) /\
      (forall c values, (3 <= List.length values)%nat -> nodeProcess c n values 3 = Err IndexError).
Proof. exact ocio_kept. Qed.
Print Assumptions C66_kept.

(** 3x3 and 3x4 matrices: the offset argument plays no role. *)
Theorem C66_small :
  forall m off,
    (List.length m = 9%nat ->
       exists n, convertMatrix m off "forward" = Ok (Some n) /\
         forall c st, (3 <= st)%nat -> actsPerPixel c n st (affine 3 (cell 3 m) (fun _ => 0))) /\
    (List.length m = 12%nat ->
       exists n, convertMatrix m off "forward" = Ok (Some n) /\
         forall c st, (3 <= st)%nat -> actsPerPixel c n st (affine 3 (cell 4 m) (fun i => cell 4 m i 3))).
Proof. exact ocio_small. Qed.
Print Assumptions C66_small.

Theorem C66_rejected :
  forall (T : Type) (N : Num T) (m off : list T) d,
    (d <> "forward"%string -> convertMatrix m off d = Ok None) /\
    (~ In (List.length m) [9; 12; 16]%nat -> convertMatrix m off "forward" = Err UnboundLocalError).
Proof. exact @ocio_rejected. Qed.
Print Assumptions C66_rejected.

(** A matrix whose blue row takes in alpha passes the test; a channel swap (zero in
    the first place) does not. *)
Definition alphaLeak : list R := [1; 0; 0; 0;  0; 1; 0; 0;  0; 0; 1; 5;  0; 0; 0; 1].
Definition redGreenSwap : list R := [0; 1; 0; 0;  1; 0; 0; 0;  0; 0; 1; 0;  0; 0; 0; 1].
Example C66_case :
  alphaLooksTrivial alphaLeak /\ cell 4 alphaLeak 2 3 <> 0 /\
  List.length redGreenSwap = 16%nat /\ ~ alphaLooksTrivial redGreenSwap.
Proof.
  split; [|split; [|split]].
  - unfold alphaLooksTrivial, cell. cbn. repeat split; lra.
  - unfold cell. cbn. lra.
  - reflexivity.
  - intros [_ [_ [_ [_ [_ H]]]]]. unfold cell in H. cbn in H. lra.
Qed.

(** * C67 *)

(** Parts that cannot be converted disappear from a group without an error. *)
Theorem C67_dropped_parts :
  forall (T : Type) (N : Num T) before (t : ocio T) after,
    dropped t -> convertTransforms (OGroup (before ++ t :: after)) = convertTransforms (OGroup (before ++ after)).
Proof. exact @ocio_group. Qed.
Print Assumptions C67_dropped_parts.

Theorem C67_groups_flatten :
  forall (T : Type) (N : Num T) (ts : list (ocio T)),
    convertTransforms (OGroup ts) = (let* ps := mapM convertTransforms ts in Ok (List.concat ps)).
Proof. exact @convert_group. Qed.
Print Assumptions C67_groups_flatten.

(** Log transforms of base 10 and 2 become nodes that compute the logarithm and
    its inverse. *)
Theorem C67_logs :
  forall c b base, (base = 10%Z /\ b = 10) \/ (base = 2%Z /\ b = 2) ->
    exists fwd inv f g, convertLog base "forward" = Some fwd /\ convertLog base "inverse" = Some inv /\
      actsPerChannel c fwd (fun _ => f) /\ actsPerChannel c inv (fun _ => g) /\
      (forall x, f x = ln (Rmax x floatMin) / ln b) /\ (forall y, g y = Rpower b y).
Proof. exact ocio_logs. Qed.
Print Assumptions C67_logs.

(** An inverse matrix between two logarithms vanishes; the rest is kept in order. *)
Example C67_case :
  dropped (OMatrix redGreenSwap [0; 0; 0; 0] "inverse") /\
  convertTransforms (OGroup [OLog 10 "forward"; OMatrix redGreenSwap [0; 0; 0; 0] "inverse"; OGroup [OLog 2 "inverse"; OOther]]) =
  Ok [newLog (AStr "16f") (AStr "16f") (AStr "log") (AStr "log") (AStr "log10");
      newLog (AStr "16f") (AStr "16f") (AStr "log") (AStr "log") (AStr "antiLog2")].
Proof. split; [constructor; discriminate|reflexivity]. Qed.
