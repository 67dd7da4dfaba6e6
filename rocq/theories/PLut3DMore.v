(** LUT3D: index maps, tables sampled from a function, and non-cubic tables. *)
From Coq Require Import Lra.
From Flocq Require Import Core.
From Verif Require Export PLut3D.
Local Open Scope R_scope.

(* ------------------------------------------------------------------ *)
(** * Index maps *)

Lemma mapFor_pick (ims : list (imap R)) ch : goodMaps ims -> ims <> [] -> (ch < 3)%nat ->
  exists m, mapFor ims ch m /\ wellFormedMap m /\ (forall m', mapFor ims ch m' -> m' = m) /\
    match ims with [] => Err IndexError | m0 :: rest => match rest with [] => Ok m0 | _ => getn ims ch end end = Ok m.
Proof.
  intros [Hcount Hgood] Hne Hch. destruct ims as [|m0 [|m1 rest]]; [congruence| |].
  - exists m0. split; [left; reflexivity|]. split; [now inversion Hgood|]. split; [|reflexivity].
    intros m' [E|[L _]]; [congruence|cbn in L; lia].
  - assert (H3 : (3 <= List.length (m0 :: m1 :: rest))%nat) by (cbn in *; lia).
    destruct (nth_error (m0 :: m1 :: rest) ch) as [m|] eqn:E; [|apply nth_error_None in E; lia].
    exists m. split; [right; auto|]. split; [eapply (proj1 (Forall_forall _ _) Hgood); eapply nth_error_In; eauto|].
    split; [|apply getn_some; exact E]. intros m' [E'|[_ E']]; [discriminate|congruence].
Qed.

Theorem lut3d_mapped c h h0 dIn a n tet :
  isLUT3D h (kindOf tet) dIn a n -> goodMaps (indexMaps (h_elems h)) -> indexMaps (h_elems h) <> [] ->
  isLUT3D h0 (kindOf tet) dIn a n -> indexMaps (h_elems h0) = [] -> (2 <= n)%nat ->
  exists F F0, actsPerColour c (Node h BLUT3D) F /\ actsPerColour c (Node h0 BLUT3D) F0 /\
    forall r g b mr mg mb yr yg yb,
      mapFor (indexMaps (h_elems h)) 0 mr -> mapFor (indexMaps (h_elems h)) 1 mg -> mapFor (indexMaps (h_elems h)) 2 mb ->
      imapProcess mr r = Ok yr -> imapProcess mg g = Ok yg -> imapProcess mb b = Ok yb ->
      F r g b = F0 (fullScale dIn * (yr / INR (n - 1))) (fullScale dIn * (yg / INR (n - 1))) (fullScale dIn * (yb / INR (n - 1))).
Proof.
  intros H Hg Hne H0 Hm0 Hn. set (ims := indexMaps (h_elems h)) in *.
  assert (Hp : 0 < INR (n - 1)) by (apply lt_0_INR; lia).
  pose (pos := fun (ch : nat) (x : R) => match match ims with [] => Err IndexError | m0 :: rest => match rest with [] => Ok m0 | _ => getn ims ch end end
                         with Ok m => imapFun m x / INR (n - 1) | Err _ => 0 end).
  exists (fun r g b => let F := lookupFun tet a n (pos 0%nat r) (pos 1%nat g) (pos 2%nat b) in (F 0%nat, F 1%nat, F 2%nat)).
  exists (lut3dFun tet a dIn n). split; [|split; [now apply lut3d_plain|]].
  - apply (lut3d_lookups c h dIn a n tet pos H). intros ch x Hch. destruct (mapFor_pick ims ch Hg Hne Hch) as [m [_ [Hwm [_ Em]]]].
    unfold stage, pos. fold ims. destruct ims as [|m0 rest] eqn:Ei; [congruence|]. rewrite Em. cbn [bind].
    rewrite imapFun_ok by assumption. cbn [bind].
    assert (Ed : dim a ch = Ok n).
    { destruct H as [_ [_ [_ [_ [[rest' Hd] _]]]]]. unfold dim. rewrite Hd. destruct ch as [|[|[|ch]]]; try lia; reflexivity. }
    rewrite Ed. cbn [bind]. realize. rewrite INR_pred by lia. reflexivity.
  - intros r g b mr mg mb yr yg yb M0 M1 M2 Y0 Y1 Y2.
    assert (P : forall ch m x y, (ch < 3)%nat -> mapFor ims ch m -> imapProcess m x = Ok y ->
                pos ch x = fullScale dIn * (y / INR (n - 1)) / fullScale dIn).
    { intros ch m x y Hch Mc Yc. destruct (mapFor_pick ims ch Hg Hne Hch) as [m' [_ [Hwm [U Em]]]].
      rewrite (U m Mc) in Yc. rewrite imapFun_ok in Yc by assumption. injection Yc as <-.
      unfold pos. rewrite Em. pose proof (fullScale_pos dIn). field. split; lra. }
    unfold lut3dFun. rewrite (P 0%nat mr r yr), (P 1%nat mg g yg), (P 2%nat mb b yb) by (assumption || lia). reflexivity.
Qed.

(* ------------------------------------------------------------------ *)
(** * Sampled tables *)

Lemma advance {S : Type} (St : nat -> S) (body : nat -> S -> res S) m :
  (forall k, (k < m)%nat -> body k (St k) = Ok (St (k + 1)%nat)) -> for_each (seq 0 m) body (St 0%nat) = Ok (St m).
Proof.
  induction m as [|m IH]; intro H; [reflexivity|]. rewrite seq_S, for_each_app, IH by (intros; apply H; lia).
  cbn [bind for_each Nat.add]. rewrite H by lia. cbn [bind]. do 2 f_equal. lia.
Qed.

Lemma slice_step (G : nat -> R) total q (vs : list R) :
  (3 * q + 3 <= total)%nat -> List.length vs = 3%nat -> (forall c, (c < 3)%nat -> nth c vs 0 = G (3 * q + c)%nat) ->
  pySliceSet (filled G total (3 * q)) (3 * q) (3 * q + 3) vs = filled G total (3 * (q + 1)).
Proof.
  intros H Hl Hv. destruct vs as [|u [|v [|w [|]]]]; try discriminate.
  pose proof (Hv 0%nat ltac:(lia)) as V0. pose proof (Hv 1%nat ltac:(lia)) as V1. pose proof (Hv 2%nat ltac:(lia)) as V2. cbn [nth] in V0, V1, V2.
  subst. unfold pySliceSet, filled.
  rewrite firstn_app, map_length, seq_length, Nat.sub_diag, firstn_O, app_nil_r.
  rewrite firstn_all2 by (rewrite map_length, seq_length; lia).
  rewrite skipn_app, map_length, seq_length. rewrite skipn_all2 by (rewrite map_length, seq_length; lia).
  replace (3 * q + 3 - 3 * q)%nat with 3%nat by lia.
  replace (total - 3 * q)%nat with (S (S (S (total - 3 * (q + 1))))) by lia. cbn [repeat skipn app].
  replace (3 * (q + 1))%nat with (S (S (S (3 * q)))) by lia. rewrite !seq_S, !map_app, <- !app_assoc. cbn [map app].
  replace (0 + 3 * q)%nat with (3 * q + 0)%nat by lia. replace (0 + S (3 * q))%nat with (3 * q + 1)%nat by lia.
  replace (0 + S (S (3 * q)))%nat with (3 * q + 2)%nat by lia.
  replace (S (S (S (total - 3 * (q + 1)))) - 3)%nat with (total - 3 * (q + 1))%nat by lia.
  replace (total - S (S (S (3 * q))))%nat with (total - 3 * (q + 1))%nat by lia. reflexivity.
Qed.

(** The colour stored at address [p] of a cubic table. *)
Definition cubeSample (n : nat) (f : R -> R -> R -> list R) (p : nat) : R :=
  let q := (p / 3)%nat in
  let pos i := INR i / INR (n - 1) in
  nth (p mod 3) (f (pos (q / n / n)%nat) (pos ((q / n) mod n)%nat) (pos (q mod n)%nat)) 0.

Lemma cubeSample_at n f x y z c : (x < n)%nat -> (y < n)%nat -> (z < n)%nat -> (c < 3)%nat ->
  cubeSample n f (3 * ((x * n + y) * n + z) + c) =
  nth c (f (INR x / INR (n - 1)) (INR y / INR (n - 1)) (INR z / INR (n - 1))) 0.
Proof.
  intros Hx Hy Hz Hc. unfold cubeSample. rewrite (Nat.mul_comm 3). cbv zeta.
  rewrite div_add_small by assumption. rewrite (Nat.add_comm _ c), Nat.mod_add, (Nat.mod_small c 3) by lia.
  rewrite div_add_small by assumption. rewrite div_add_small by assumption.
  rewrite (Nat.add_comm (x * n) y), Nat.mod_add, (Nat.mod_small y) by lia.
  rewrite (Nat.add_comm _ z), Nat.mod_add, (Nat.mod_small z) by lia. reflexivity.
Qed.

Lemma table3D_R n f : (2 <= n)%nat -> (forall r g b, List.length (f r g b) = 3%nat) ->
  table3D n n n f = Ok (map (cubeSample n f) (seq 0 (n * n * n * 3))).
Proof.
  intros Hn Hf. unfold table3D.
  rewrite <- (filled_start (cubeSample n f)), <- filled_end. set (total := (n * n * n * 3)%nat).
  replace (filled (cubeSample n f) total total) with (filled (cubeSample n f) total (3 * (n * n * n))) by (f_equal; unfold total; lia).
  change (filled (cubeSample n f) total 0) with ((fun x => filled (cubeSample n f) total (3 * (x * n * n))) 0%nat).
  replace (n * n * n)%nat with (n * n * n)%nat by lia.
  apply (advance (fun x => filled (cubeSample n f) total (3 * (x * n * n)))). intros x Hx. rewrite samplePos_R by assumption. cbn [bind].
  replace (filled (cubeSample n f) total (3 * (x * n * n))) with ((fun y => filled (cubeSample n f) total (3 * ((x * n + y) * n))) 0%nat)
    by (cbv beta; f_equal; lia).
  replace (filled (cubeSample n f) total (3 * ((x + 1) * n * n))) with ((fun y => filled (cubeSample n f) total (3 * ((x * n + y) * n))) n)
    by (cbv beta; f_equal; lia).
  apply (advance (fun y => filled (cubeSample n f) total (3 * ((x * n + y) * n)))). intros y Hy. rewrite samplePos_R by assumption. cbn [bind].
  replace (filled (cubeSample n f) total (3 * ((x * n + y) * n))) with ((fun z => filled (cubeSample n f) total (3 * ((x * n + y) * n + z))) 0%nat)
    by (cbv beta; f_equal; lia).
  replace (filled (cubeSample n f) total (3 * ((x * n + (y + 1)) * n))) with ((fun z => filled (cubeSample n f) total (3 * ((x * n + y) * n + z))) n)
    by (cbv beta; f_equal; lia).
  apply (advance (fun z => filled (cubeSample n f) total (3 * ((x * n + y) * n + z)))). intros z Hz. rewrite samplePos_R by assumption. cbn [bind].
  f_equal. rewrite (Nat.mul_comm _ 3). rewrite slice_step; [f_equal; lia| |apply Hf|].
  - unfold total. nia.
  - intros c Hc. symmetry. now apply cubeSample_at.
Qed.

Theorem sampled_cube c id tid n (f : R -> R -> R -> list R) dIn dOut :
  (2 <= n)%nat -> (forall r g b, List.length (f r g b) = 3%nat) ->
  exists node F, simple3DLUT id tid n n n f dIn dOut = Ok node /\ actsPerColour c node F /\
    (forall i j k ch, (i < n)%nat -> (j < n)%nat -> (k < n)%nat -> (ch < 3)%nat ->
       part ch (F (codeAt dIn n i) (codeAt dIn n j) (codeAt dIn n k)) =
       nth ch (f (INR i / INR (n - 1)) (INR j / INR (n - 1)) (INR k / INR (n - 1))) 0) /\
    ((exists p0 pr pg pb : nat -> R, forall r g b ch, (ch < 3)%nat -> nth ch (f r g b) 0 = p0 ch + pr ch * r + pg ch * g + pb ch * b) ->
     forall r g b ch, 0 <= r <= fullScale dIn -> 0 <= g <= fullScale dIn -> 0 <= b <= fullScale dIn -> (ch < 3)%nat ->
       part ch (F r g b) = nth ch (f (r / fullScale dIn) (g / fullScale dIn) (b / fullScale dIn)) 0).
Proof.
  intros Hn Hf. unfold simple3DLUT. rewrite table3D_R by assumption. cbn [bind].
  set (vals := map _ _). set (nd := setArray3D _ _ _ _).
  set (a := mkArray ([n; n; n] ++ [3%nat]) vals false (outIsInteger (newLUT3D (T := R) dIn dOut id tid (AStr "trilinear"))) "string").
  assert (Hw : wellFormed3D a n).
  { split; [eexists; reflexivity|]. split; [lia|]. cbn [a_vals a mkArray]. unfold vals. now rewrite map_length, seq_length. }
  assert (He : forall i j k ch, (i < n)%nat -> (j < n)%nat -> (k < n)%nat -> (ch < 3)%nat ->
     entry3D a n i j k ch = nth ch (f (INR i / INR (n - 1)) (INR j / INR (n - 1)) (INR k / INR (n - 1))) 0).
  { intros i j k ch Hi Hj Hk Hc. rewrite <- cubeSample_at by assumption. unfold entry3D. cbn [a_vals a mkArray]. unfold vals.
    apply nth_error_nth. rewrite nth_error_map.
    replace (((i * n + j) * n + k) * 3 + ch)%nat with (3 * ((i * n + j) * n + k) + ch)%nat by lia.
    rewrite (nth_error_nth' _ 0%nat) by (rewrite seq_length; nia). rewrite seq_nth by nia. reflexivity. }
  pose (h := nheader nd).
  assert (Hl : isLUT3D h (kindOf false) dIn a n).
  { split; [reflexivity|]. split; [eexists; reflexivity|]. split; [reflexivity|]. split; [reflexivity|assumption]. }
  destruct (lut3d_entries c h dIn a n false Hl eq_refl Hn) as [F [HF HE]].
  assert (EF : forall F', actsPerColour c (Node h BLUT3D) F' -> forall r g b, F' r g b = F r g b).
  { intros F' HF' r g b. specialize (HF 3%nat [r; g; b] ltac:(cbn; lia)). specialize (HF' 3%nat [r; g; b] ltac:(cbn; lia)).
    rewrite HF in HF'. apply Ok_inj in HF'. cbn in HF'. destruct (F r g b) as [[? ?] ?], (F' r g b) as [[? ?] ?].
    cbn in HF'. now injection HF' as -> -> ->. }
  exists nd, F. split; [reflexivity|]. split; [exact HF|]. split.
  - intros i j k ch Hi Hj Hk Hc. rewrite HE by assumption. rewrite <- He by assumption. destruct ch as [|[|[|ch]]]; try lia; reflexivity.
  - intros [p0 [pr [pg [pb Hp]]]] r g b ch Hr Hg Hb Hc.
    pose proof (fullScale_pos dIn) as Hfs. assert (0 < INR (n - 1)) by (apply lt_0_INR; lia).
    destruct (lut3d_affine c h dIn a n false p0 (fun ch => pr ch / fullScale dIn) (fun ch => pg ch / fullScale dIn) (fun ch => pb ch / fullScale dIn) Hl eq_refl Hn)
      as [F' [HF' HA]].
    + intros i j k ch' Hi Hj Hk Hc'. rewrite He by assumption. rewrite Hp by assumption. unfold codeAt. field. split; lra.
    + rewrite <- (EF F' HF'). rewrite HA by assumption. rewrite Hp by assumption. field. lra.
Qed.
