(** 1D LUTs and index maps: C19, C20, C22, C25. *)
From Coq Require Import Reals Lra.
From Verif Require Import PSample.
Local Open Scope R_scope.

(** A three-entry, three-channel LUT for 8i input. *)
Definition lutVals : list R := [0; 10; 5;  100; 20; 5;  200; 30; 4].
Definition lutArray : array R := mkArray [3; 3]%nat lutVals false true "string".
Definition lutHeader : header R :=
  hAddElem (newHeader (AStr "8i") (AStr "10i") (AStr "l") (AStr "l")) (EArray lutArray).
Example C19_data : isLUT1D lutHeader (AStr "8i") lutArray 3 /\ indexMaps (h_elems lutHeader) = [].
Proof.
  split; [|reflexivity]. split; [reflexivity|]. split; [eexists; reflexivity|]. split; [cbn; discriminate|].
  split; [reflexivity|]. split; [reflexivity|]. split; [|reflexivity].
  exists 3%nat, 3%nat, []. repeat split; auto; lia.
Qed.
(** It is what the constructor and setArray build. *)
Example C19_built :
  setArray1D (newLUT1D (AStr "8i") (AStr "10i") (AStr "l") (AStr "l") (AStr "") (AStr "") (AStr "")) 3 lutVals "string" =
  Ok (Node lutHeader BLUT1D).
Proof. reflexivity. Qed.

(** * C19 *)

Theorem C19_entries_at_samples :
  forall c h dIn a n,
    isLUT1D h dIn a n -> indexMaps (h_elems h) = [] -> (2 <= n)%nat ->
    exists f, actsPerChannel c (Node h BLUT1D) f /\
      forall ch, (ch < 3)%nat ->
        (forall k, (k < n)%nat -> f ch (codeAt dIn n k) = entry1D a k ch) /\
        (forall x, x <= 0 -> f ch x = entry1D a 0 ch) /\
        (forall x, fullScale dIn <= x -> f ch x = entry1D a (n - 1) ch) /\
        (forall k x, (k + 1 < n)%nat -> codeAt dIn n k <= x <= codeAt dIn n (k + 1) ->
           f ch x = through (codeAt dIn n k) (entry1D a k ch) (codeAt dIn n (k + 1)) (entry1D a (k + 1) ch) x).
Proof. exact lut1d_entries. Qed.
Print Assumptions C19_entries_at_samples.

Theorem C19_single_entry :
  forall c h dIn a, isLUT1D h dIn a 1 -> indexMaps (h_elems h) = [] ->
    actsPerChannel c (Node h BLUT1D) (fun ch _ => entry1D a 0 ch).
Proof. exact lut1d_single. Qed.
Print Assumptions C19_single_entry.

(** With index maps the table is read at the mapped position. *)
Theorem C19_entries_at_mapped_positions :
  forall c h dIn a n,
    isLUT1D h dIn a n -> goodMaps (indexMaps (h_elems h)) -> indexMaps (h_elems h) <> [] -> (2 <= n)%nat ->
    exists f, actsPerChannel c (Node h BLUT1D) f /\
      forall ch m x y, (ch < 3)%nat -> mapFor (indexMaps (h_elems h)) ch m -> imapProcess m x = Ok y ->
        (forall k, (k < n)%nat -> y = INR k -> f ch x = entry1D a k ch) /\
        (forall k, (k + 1 < n)%nat -> INR k <= y <= INR (k + 1) ->
           f ch x = through (INR k) (entry1D a k ch) (INR (k + 1)) (entry1D a (k + 1) ch) y) /\
        (y <= 0 -> f ch x = entry1D a 0 ch) /\ (INR (n - 1) <= y -> f ch x = entry1D a (n - 1) ch).
Proof. exact lut1d_mapped. Qed.
Print Assumptions C19_entries_at_mapped_positions.

(** Code 51 is a fifth of the way from entry 0 to entry 2; code 300 is past the end. *)
Example C19_case : outcome (nodeProcess 0 (Node lutHeader BLUT1D) [51; 255; 300] 3) = Ok [40; 30; 4].
Proof.
  destruct (C19_entries_at_samples 0 _ _ _ _ (proj1 C19_data) (proj2 C19_data) ltac:(lia)) as [f [Hf Hs]].
  rewrite (Hf 3%nat _ ltac:(lia)). unfold perChannel, perColour, indexed, part. cbn.
  destruct (Hs 0%nat ltac:(lia)) as [_ [_ [_ D]]]. destruct (Hs 1%nat ltac:(lia)) as [A [_ [_ _]]].
  destruct (Hs 2%nat ltac:(lia)) as [_ [_ [C _]]].
  rewrite (D 0%nat 51) by (lia || (unfold codeAt; cbn; lra)). rewrite (C 300) by (cbn; lra).
  replace 255 with (codeAt (AStr "8i") 3 2) by (unfold codeAt; cbn; lra). rewrite (A 2%nat) by lia.
  unfold through, codeAt. cbn. repeat (f_equal; try lra).
Qed.
Definition lutMapped : header R := hAddElem lutHeader (EIndexMap (mkIndexMap [0; 100; 200] [0; 2; 1])).
Example C19_mapped_data :
  isLUT1D lutMapped (AStr "8i") lutArray 3 /\ goodMaps (indexMaps (h_elems lutMapped)) /\
  mapFor (indexMaps (h_elems lutMapped)) 2 (mkIndexMap [0; 100; 200] [0; 2; 1]).
Proof.
  split; [|split; [|left; reflexivity]].
  - split; [reflexivity|]. split; [eexists; reflexivity|]. split; [cbn; discriminate|].
    split; [reflexivity|]. split; [reflexivity|]. split; [|reflexivity]. exists 3%nat, 3%nat, []. repeat split; auto; lia.
  - split; [cbn; lia|]. repeat constructor; discriminate.
Qed.

(** * C20 *)

Theorem C20_between_and_monotone :
  forall c h dIn a n,
    isLUT1D h dIn a n -> indexMaps (h_elems h) = [] -> (2 <= n)%nat ->
    exists f, actsPerChannel c (Node h BLUT1D) f /\
      forall ch, (ch < 3)%nat ->
        (forall k x, (k + 1 < n)%nat -> codeAt dIn n k <= x <= codeAt dIn n (k + 1) ->
           Rmin (entry1D a k ch) (entry1D a (k + 1) ch) <= f ch x <= Rmax (entry1D a k ch) (entry1D a (k + 1) ch)) /\
        (nondecreasing n (fun k => entry1D a k ch) -> forall x y, x <= y -> f ch x <= f ch y).
Proof. exact lut1d_between. Qed.
Print Assumptions C20_between_and_monotone.

Example C20_case : nondecreasing 3 (fun k => entry1D lutArray k 0) /\ ~ nondecreasing 3 (fun k => entry1D lutArray k 2).
Proof.
  split.
  - intros [|[|k]] H; [cbn; lra|cbn; lra|lia].
  - intro H. specialize (H 1%nat ltac:(lia)). cbn in H. lra.
Qed.

(** * C22 *)

Theorem C22_sampled_function :
  forall c id tid ch n (f : R -> R) dIn dOut,
    (2 <= n)%nat -> (ch = 1 \/ ch = 3)%nat ->
    exists node g, simpleSampledLUT id tid ch n f dIn dOut = Ok node /\ actsPerChannel c node g /\
      forall i, (i < 3)%nat ->
        (forall k, (k < n)%nat -> g i (codeAt dIn n k) = f (INR k / INR (n - 1))) /\
        (forall p q, (forall x, f x = p * x + q) -> forall x, 0 <= x <= fullScale dIn -> g i x = f (x / fullScale dIn)).
Proof. exact sampled_lut. Qed.
Print Assumptions C22_sampled_function.

Theorem C22_one_sample_fails :
  forall (T : Type) (N : Num T) id tid ch (f : T -> T) dIn dOut,
    neqb (nofZ 0) n0 = true -> simpleSampledLUT id tid ch 1 f dIn dOut = Err ZeroDivisionError.
Proof. exact @sampled_single. Qed.
Print Assumptions C22_one_sample_fails.

(** The default function is the identity. *)
Example C22_case : forall x y : R, 0 <= x <= 1 -> 0 <= y <= 1 ->
  exists node, simpleSampledLUT (AStr "i") (AStr "i") 1 1024 (fun x => x) (AStr "16f") (AStr "16f") = Ok node /\
    outcome (nodeProcess 0 node [x; y; 1/2; 7] 4) = Ok [x; y; 1/2; 7].
Proof.
  intros x y Hx Hy.
  destruct (C22_sampled_function 0 (AStr "i") (AStr "i") 1 (2 * 512) (fun x => x) (AStr "16f") (AStr "16f")) as [nd [g [E [Hg Hs]]]]; [lia|auto|].
  exists nd. split; [exact E|]. rewrite (Hg 4%nat _ ltac:(lia)). unfold perChannel, perColour, indexed. cbn.
  assert (I : forall i z, (i < 3)%nat -> 0 <= z <= 1 -> g i z = z).
  { intros i z Hi Hz. destruct (Hs i Hi) as [_ B]. rewrite (B 1 0) by (intros; cbn; lra). cbn. lra. }
  rewrite !I by (lia || lra). reflexivity.
Qed.

(** * C25 *)

Theorem C25_index_map :
  forall m : imap R, wellFormedMap m ->
    exists f, (forall x, imapProcess m x = Ok (f x)) /\
      (forall lo hi, Forall (fun y => lo <= y <= hi) (im_out m) -> forall x, lo <= f x <= hi) /\
      (nondecreasing (List.length (im_out m)) (fun k => nth k (im_out m) 0) -> forall x y, x <= y -> f x <= f y) /\
      (forall x, x <= nth 0 (im_in m) 0 -> f x = nth 0 (im_out m) 0) /\
      (forall x, nth 0 (im_in m) 0 < x -> nth (List.length (im_in m) - 1) (im_in m) 0 <= x ->
         f x = nth (List.length (im_in m) - 1) (im_out m) 0) /\
      (risingInputs (im_in m) ->
         (forall k, (k < List.length (im_in m))%nat -> f (nth k (im_in m) 0) = nth k (im_out m) 0) /\
         (forall k x, (k + 1 < List.length (im_in m))%nat -> nth k (im_in m) 0 <= x <= nth (k + 1) (im_in m) 0 ->
            f x = through (nth k (im_in m) 0) (nth k (im_out m) 0) (nth (k + 1) (im_in m) 0) (nth (k + 1) (im_out m) 0) x)).
Proof. exact imap_all. Qed.
Print Assumptions C25_index_map.

Example C25_case :
  wellFormedMap (mkIndexMap [0; 100; 200] [0; 2; 1]) /\ risingInputs [0; 100; 200] /\
  imapProcess (mkIndexMap [0; 100; 200] [0; 2; 1]) 150 = Ok (3 / 2).
Proof.
  assert (W : wellFormedMap (mkIndexMap [0; 100; 200] [0; 2; 1])) by (split; [discriminate|repeat constructor]).
  assert (I : risingInputs [0; 100; 200]) by (intros [|[|k]] H; cbn in *; try lra; lia).
  split; [exact W|]. split; [exact I|].
  destruct (C25_index_map _ W) as [f [Hf [_ [_ [_ [_ Hk]]]]]]. rewrite Hf. f_equal.
  destruct (Hk I) as [_ K]. rewrite (K 1%nat 150) by (cbn; lia || (cbn; lra)). unfold through. cbn. lra.
Qed.
