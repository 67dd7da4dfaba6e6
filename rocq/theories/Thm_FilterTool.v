(** filterImageWithCLF from image to image, and its command line (C83). *)
From Coq Require Import List String ZArith Lia.
From Verif Require Import NumF SpecFilterTool PFilterTool PFilterMain.
Import ListNotations.
Local Open Scope string_scope.
Local Open Scope list_scope.

(** With an empty list the filter changes the depth of an integer image: every code becomes
    [newCode], whatever the number of workers and their order. *)
Theorem C83_integer_images :
  forall (L : libm), let N := ieeeNum L in
  forall c (l : plist fl) (s : stored fl) d ks o d' a b k,
    holdsCodes s d ks -> hasPicture s ks -> asked d o d' ->
    largestCode (AStr d) = Some a -> largestCode (AStr d') = Some b -> procs_of l = [] -> 2 <= k ->
    filterCall c l (Some s) o k (TWrites (writtenCodes d' (map (newCode a b) ks)) (Some (writtenBits d'))) /\
    forall e, filterCall c l (Some s) o k e ->
      e = TWrites (writtenCodes d' (map (newCode a b) ks)) (Some (writtenBits d')) \/ e = TNothing.
Proof. exact filter_codes. Qed.
Print Assumptions C83_integer_images.

(** At its own depth the image is written as it was read. *)
Theorem C83_same_depth :
  forall (L : libm), let N := ieeeNum L in
  forall c (l : plist fl) (s : stored fl) d ks a k,
    holdsCodes s d ks -> hasPicture s ks -> largestCode (AStr d) = Some a -> procs_of l = [] -> 2 <= k ->
    filterCall c l (Some s) None k (TWrites (writtenCodes d ks) (Some (writtenBits d))) /\
    forall e, filterCall c l (Some s) None k e -> e = TWrites (writtenCodes d ks) (Some (writtenBits d)) \/ e = TNothing.
Proof. exact filter_same. Qed.
Print Assumptions C83_same_depth.

(** Bits per sample other than 10, 12 and 16: the samples are shifted down but taken for 16 bit
    codes and not shifted back, so the picture gets darker. *)
Theorem C83_other_bits :
  forall (L : libm), let N := ieeeNum L in
  forall c (l : plist fl) (s : stored fl) b vs k,
    o_samples s = SUInt16 vs -> o_bits s = Some b -> (1 <= b <= 16)%Z -> b <> 10%Z -> b <> 12%Z -> Forall (isCode 65535) vs ->
    hasPicture s vs -> procs_of l = [] -> 2 <= k ->
    filterCall c l (Some s) None k (TWrites (PInts 16 (map (fun v => v / 2 ^ (16 - b)) vs)%Z) (Some 16%Z)) /\
    forall e, filterCall c l (Some s) None k e -> e = TWrites (PInts 16 (map (fun v => v / 2 ^ (16 - b)) vs)%Z) (Some 16%Z) \/ e = TNothing.
Proof. exact filter_other_bits. Qed.
Print Assumptions C83_other_bits.

(** Codes are not always the exact ratio rounded down. *)
Theorem C83_rounds_down_refuted :
  forall (L : libm), let N := ieeeNum L in
  exists c (l : plist fl) s d ks o d' a b k e,
    holdsCodes s d ks /\ hasPicture s ks /\ asked d o d' /\
    largestCode (AStr d) = Some a /\ largestCode (AStr d') = Some b /\ procs_of l = [] /\ 2 <= k /\
    filterCall c l (Some s) o k e /\ e <> TNothing /\
    forall tag, e <> TWrites (writtenCodes d' (map (fun k => k * b / a)%Z ks)) tag.
Proof. exact rounds_up. Qed.
Print Assumptions C83_rounds_down_refuted.

(** A missing image is an exception, not the message line 501 has for it; so are sample types
    without a CLF depth and more than 16 bits per sample. *)
Theorem C83_no_image :
  forall (T : Type) (N : Num T) c (l : plist T) o k e, filterCall c l None o k e <-> e = TRaises ValueError.
Proof. exact @no_image. Qed.
Print Assumptions C83_no_image.
Theorem C83_other_types :
  forall (T : Type) (N : Num T) c (l : plist T) s o k e,
    o_samples s = SOther -> (filterCall c l (Some s) o k e <-> e = TRaises KeyError).
Proof. exact @other_type. Qed.
Print Assumptions C83_other_types.
Theorem C83_too_many_bits :
  forall (T : Type) (N : Num T) c (l : plist T) s o k vs b e,
    o_samples s = SUInt16 vs -> vs <> [] -> o_bits s = Some b -> (16 < b)%Z ->
    (filterCall c l (Some s) o k e <-> e = TRaises ValueError).
Proof. exact @too_many_bits. Qed.
Print Assumptions C83_too_many_bits.

(** Called with an output depth that is none of the six, the filter keeps the image's. *)
Theorem C83_unknown_depth :
  forall (T : Type) (N : Num T) c (l : plist T) s o k e,
    ~ knownDepth o -> (filterCall c l s (Some o) k e <-> filterCall c l s None k e).
Proof. exact @unknown_depth. Qed.
Print Assumptions C83_unknown_depth.

(** The command line: an unknown output depth or a missing path writes nothing; a CLF that does
    not open is an exception; otherwise the filter runs, with at least one and at most as
    many workers as there are processors. *)
Theorem C83_main_unknown_depth :
  forall (T : Type) (N : Num T) (X : NumText T) (B : Type) (io : fileLib B) limit c cpus fs images o d r,
    fo_outBitDepth o = Some d -> d <> "" -> ~ knownDepth d ->
    (filterMain io limit c cpus fs images o r <-> r = (None, TNothing)).
Proof. exact @main_bad_depth. Qed.
Print Assumptions C83_main_unknown_depth.
Theorem C83_main_missing_path :
  forall (T : Type) (N : Num T) (X : NumText T) (B : Type) (io : fileLib B) limit c cpus fs images o r,
    fo_clf o = None \/ fo_input o = None \/ fo_output o = None ->
    filterMain io limit c cpus fs images o r -> fst r = None.
Proof. exact @main_missing. Qed.
Print Assumptions C83_main_missing_path.
Theorem C83_main_unread_list :
  forall (T : Type) (N : Num T) (X : NumText T) (B : Type) (io : fileLib B) limit c cpus fs images o clf x r,
    (forall d, fo_outBitDepth o = Some d -> d = "" \/ knownDepth d) ->
    fo_clf o = Some clf -> openList io limit c fs false clf = Err x ->
    (filterMain io limit c cpus fs images o r <-> r = (None, TRaises x)).
Proof. exact @main_unread. Qed.
Print Assumptions C83_main_unread_list.
Theorem C83_main_runs :
  forall (T : Type) (N : Num T) (X : NumText T) (B : Type) (io : fileLib B) limit c cpus fs images o clf input output l r,
    (forall d, fo_outBitDepth o = Some d -> d = "" \/ knownDepth d) ->
    fo_clf o = Some clf -> fo_input o = Some input -> fo_output o = Some output -> openList io limit c fs false clf = Ok l ->
    (filterMain io limit c cpus fs images o r <->
     exists e, filterCall c l (images input) (fo_outBitDepth o) (Z.to_nat (Z.min cpus (Z.max 1 (fo_multithreaded o)))) e /\
               r = (match e with TWrites _ _ => Some output | _ => None end, e)).
Proof. exact @main_runs. Qed.
Print Assumptions C83_main_runs.

(** A 2 x 2 image of 10 bit codes in 16 bit samples, to 8 bits and to 16. *)
Definition tenBits : stored fl := {| o_width := 2; o_height := 2; o_channels := 1; o_bits := Some 10%Z; o_samples := SUInt16 [0; 32704; 39488; 65472]%Z |}.
Example C83_case :
  holdsCodes tenBits "10i" [0; 511; 617; 1023]%Z /\ hasPicture tenBits [0; 511; 617; 1023]%Z /\ asked "10i" (Some "8i") "8i" /\
  map (newCode 1023 255) [0; 511; 617; 1023]%Z = [0; 127; 153; 255]%Z /\ map (newCode 1023 65535) [0; 511; 617; 1023]%Z = [0; 32735; 39526; 65535]%Z /\
  writtenCodes (T := fl) "10i" [0; 511; 617; 1023]%Z = PInts 16 [0; 32704; 39488; 65472]%Z /\ (617 * 65535 / 1023 = 39525)%Z.
Proof.
  split; [apply (CodesUpper tenBits 10 [0; 32704; 39488; 65472]%Z); try reflexivity; [lia|repeat constructor; unfold isCode; lia]|].
  split; [split; [cbn; lia|split; [cbn; lia|reflexivity]]|]. split; [now left|]. repeat split; reflexivity.
Qed.
(** 14 bits: white comes out at a quarter. *)
Definition fourteenBits : stored fl := {| o_width := 1; o_height := 2; o_channels := 1; o_bits := Some 14%Z; o_samples := SUInt16 [65532; 4]%Z |}.
Example C83_other_bits_case : hasPicture fourteenBits [65532; 4]%Z /\ map (fun v => v / 2 ^ (16 - 14))%Z [65532; 4]%Z = [16383; 1]%Z.
Proof. split; [split; [cbn; lia|split; [cbn; lia|reflexivity]]|reflexivity]. Qed.
Example C83_main_case : ~ knownDepth "14i" /\ ~ knownDepth "" /\ knownDepth "10i".
Proof. split; [|split; [|right; left; reflexivity]]; intros H; cbn in H; intuition discriminate. Qed.
