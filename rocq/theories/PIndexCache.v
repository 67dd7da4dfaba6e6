(** Proofs about the cached evaluation of index maps. *)
From Coq Require Import Reals Lra Psatz List.
From Flocq Require Import Core BinarySingleNaN.
From Verif Require Export MIndexCache PHalfLut.
From Verif Require Import PBase PFacts.
Import ListNotations.
Local Open Scope R_scope.

Section Any.
  Context {T : Type} {N : Num T}.

  Lemma cache_kept (m : indexMap T) k a : ix_cache m = Some a -> ix_cache (ixDo m k) = Some a.
  Proof.
    intro H. destruct k; cbn; try exact H. unfold ixProcess. destruct (ix_use m); [|exact H]. rewrite H. exact H.
  Qed.
  Lemma cache_stays (m : indexMap T) ks a : ix_cache m = Some a -> ix_cache (ixDoAll m ks) = Some a.
  Proof.
    revert m. induction ks as [|k ks IH]; intros m H; [exact H|]. apply IH. now apply cache_kept.
  Qed.
  Lemma cached_process (m : indexMap T) a x : ix_use m = true -> ix_cache m = Some a -> ixProcess m x = (lookup1DHalfDomain a x 0, m).
  Proof. intros U H. unfold ixProcess. now rewrite U, H. Qed.
  Lemma create_cache (m m' : indexMap T) : ixCreate m = Ok m' -> exists a, ix_cache m' = Some a /\ ix_use m' = ix_use m.
  Proof.
    unfold ixCreate. intro H. destruct (mapM _ _) as [t|]; [|discriminate]. cbn [bind] in H. apply Ok_inj in H. subst m'. eexists. split; reflexivity.
  Qed.
  Lemma process_cache (m : indexMap T) x y : ix_use m = true -> fst (ixProcess m x) = Ok y -> exists a, ix_cache (snd (ixProcess m x)) = Some a.
  Proof.
    intros U H. unfold ixProcess in *. rewrite U in *. destruct (ix_cache m) as [a|] eqn:C; [exists a; exact C|].
    destruct (ixCreate m) as [m'|] eqn:E; [|discriminate]. destruct (create_cache _ _ E) as [a [Ha _]]. exists a. exact Ha.
  Qed.

  (** Whatever is done after a first cached evaluation, later ones do as it did. *)
  Theorem stale (m m' : indexMap T) x0 y0 ks x :
    ix_use m = true -> ixProcess m x0 = (Ok y0, m') -> ix_use (ixDoAll m' ks) = true ->
    fst (ixProcess (ixDoAll m' ks) x) = fst (ixProcess m x).
  Proof.
    intros U P U'. destruct (process_cache m x0 y0 U) as [a Ha]; [now rewrite P|]. rewrite P in Ha. cbn [snd] in Ha.
    rewrite (cached_process _ a x U' (cache_stays _ ks _ Ha)). cbn [fst].
    unfold ixProcess in *. rewrite U in *. destruct (ix_cache m) as [b|] eqn:C.
    - injection P as _ <-. rewrite C in Ha. injection Ha as ->. reflexivity.
    - destruct (ixCreate m) as [m1|] eqn:E; [|discriminate]. injection P as _ <-. cbn [fst]. rewrite Ha. reflexivity.
  Qed.

  Theorem set_values_fails (m : indexMap T) d ins outs :
    ix_use m = true -> ix_dim m = Some d ->
    fst (ixSetValues m (Some (ins, outs))) = Err AttributeError /\
    ix_vals (snd (ixSetValues m (Some (ins, outs)))) = Some (ins, outs) /\
    ix_cache (snd (ixSetValues m (Some (ins, outs)))) = ix_cache m.
  Proof. intros U D. unfold ixSetValues. rewrite U, D. repeat split. Qed.

  (** Built at once or at the first use, the cache is the same. *)
  Theorem late_cache d ins outs (m : indexMap T) x :
    newIndexMap (Some d) (Some (ins, outs)) true = Ok m ->
    exists u, newIndexMap (Some d) (Some (ins, outs)) false = Ok u /\ ixProcess (ixSetUse u true) x = ixProcess m x.
  Proof.
    unfold newIndexMap. cbn [andb isSome]. intro H. eexists. split; [reflexivity|].
    destruct (create_cache _ _ H) as [a [Ha Hu]]. cbn [ix_use] in Hu. rewrite (cached_process m a x Hu Ha).
    unfold ixProcess. cbn [ixSetUse ix_use ix_cache]. unfold ixSetUse. cbn [ix_dim ix_vals ix_cache]. rewrite H, Ha. reflexivity.
  Qed.

  Lemma fails_at_once (f : nat -> res T) n e : (0 < n)%nat -> f 0%nat = Err e -> mapM f (seq 0 n) = Err e.
  Proof. intros Hn E. destruct n as [|n]; [inversion Hn|]. cbn [seq mapM]. rewrite E. reflexivity. Qed.
  Theorem constructor_caches d vals use (m : indexMap T) : newIndexMap d vals use = Ok m ->
    ix_dim m = d /\ ix_vals m = vals /\ ix_use m = use /\ (ix_cache m <> None <-> d <> None /\ vals <> None /\ use = true).
  Proof.
    unfold newIndexMap. destruct (use && isSome vals && isSome d) eqn:B.
    - unfold ixCreate. set (q := mapM _ _). destruct q as [t|]; [|discriminate]. cbn [bind]. intro H. injection H as <-. cbn [ix_dim ix_vals ix_use ix_cache].
      apply andb_prop in B as [B B3]. apply andb_prop in B as [B1 B2]. repeat split; try assumption; try discriminate.
      + destruct d; [discriminate|discriminate B3].
      + destruct vals; [discriminate|discriminate B2].
    - intro H. injection H as <-. cbn [ix_dim ix_vals ix_use ix_cache]. split; [reflexivity|]. split; [reflexivity|]. split; [reflexivity|]. split; [congruence|]. intros (H1 & H2 & ->).
      destruct d; [|congruence]. destruct vals; [discriminate B|congruence].
  Qed.
  Theorem constructor_incomplete d (vals : option (list T * list T)) use : d = None \/ vals = None \/ use = false -> is_ok (newIndexMap d vals use).
  Proof.
    intro H. unfold newIndexMap. assert (B : use && isSome vals && isSome d = false); [|rewrite B; eexists; reflexivity].
    destruct H as [->|[->| ->]]; cbn [isSome]; rewrite ?andb_false_r; reflexivity.
  Qed.
  Theorem no_values (m : indexMap T) x : ix_vals m = None -> ix_use m = false \/ ix_cache m = None ->
    ixProcess m x = (Err IndexError, m).
  Proof.
    intros V H. unfold ixProcess. destruct (ix_use m) eqn:U; [|unfold ixRaw; now rewrite V].
    destruct H as [H|H]; [discriminate|]. rewrite H.
    assert (E : ixCreate m = Err IndexError); [|now rewrite E].
    unfold ixCreate. rewrite (fails_at_once _ _ IndexError); [reflexivity| |unfold ixRaw; now rewrite V].
    apply Nat.mul_pos_pos; apply Nat.lt_0_succ.
  Qed.

  Lemma table_entry (f : nat -> res T) n t k :
    mapM f (seq 0 n) = Ok t -> (0 <= k < Z.of_nat n)%Z -> f (Z.to_nat k) = Ok (nth (Z.to_nat k) t n0).
  Proof.
    intros E Hk.
    assert (Hs : nth_error (seq 0 n) (Z.to_nat k) = Some (Z.to_nat k)).
    { rewrite (nth_error_nth' _ 0%nat) by (rewrite seq_length; lia). f_equal. rewrite seq_nth by lia. lia. }
    destruct (mapM_nth _ _ _ _ _ E Hs) as [y [Hf Hy]]. rewrite (nth_error_nth _ _ n0 Hy). exact Hf.
  Qed.
  Lemma created d ins outs (m : indexMap T) :
    newIndexMap (Some d) (Some (ins, outs)) true = Ok m ->
    exists a n, ix_cache m = Some a /\ ix_use m = true /\ ix_vals m = Some (ins, outs) /\ wellFormed1D a /\ a_dt a = DtList /\
      hd_error (a_dims a) = Some n /\ Z.of_nat n = 65536%Z /\
      forall k, (0 <= k < 65536)%Z -> ixRaw m (nhalf k) = Ok (entry1D a (Z.to_nat k) 0).
  Proof.
    unfold newIndexMap. cbn [andb isSome]. unfold ixCreate. intro H.
    set (m0 := {| ix_dim := Some d; ix_vals := Some (ins, outs); ix_use := true; ix_cache := None |}) in H.
    assert (Z5 : Z.of_nat (256 * 256) = 65536%Z) by (rewrite Nat2Z.inj_mul; reflexivity).
    set (n := (256 * 256)%nat) in *. clearbody n.
    destruct (mapM _ _) as [t|] eqn:E; [|discriminate]. cbn [bind] in H. apply Ok_inj in H. subst m.
    pose proof (mapM_length _ _ _ E) as Lt. rewrite seq_length in Lt. rewrite Lt.
    eexists. exists n. split; [reflexivity|]. split; [reflexivity|]. split; [reflexivity|]. cbn [a_dims a_dt hd_error].
    split; [exists n, 1%nat, []; cbn [a_dims a_vals]; rewrite Lt; split; [reflexivity|]; split; [lia|]; split; lia|]. split; [reflexivity|]. split; [reflexivity|].
    split; [exact Z5|].
    intros k Hk. unfold entry1D. cbn [a_dims a_vals]. pose proof (table_entry _ n t k E ltac:(lia)) as Q. cbv beta in Q.
    rewrite Z2Nat.id in Q by lia. exact Q.
  Qed.
End Any.

Section Ieee.
  Variable L : libm.
  #[local] Hint Extern 0 (Num fl) => exact (ieeeNum L) : typeclass_instances.

  Theorem cached_values d ins outs (m : indexMap fl) :
    newIndexMap (Some d) (Some (ins, outs)) true = Ok m ->
    forall x, let p := nf32 x in exists y, fst (ixProcess m p) = Ok y /\
      (is_nan p = true -> is_nan y = true) /\
      (Bleb (nofZ 65520) p = true -> y = B754_infinity false) /\
      (Bleb p (nofZ (-65520)) = true -> y = B754_infinity true) /\
      (is_finite p = true -> Rabs (B2R p) < 65520 ->
         exists k1 k2 r y1 y2, halfWeight L p k1 k2 r /\ ixRaw m (nhalf k1) = Ok y1 /\ ixRaw m (nhalf k2) = Ok y2 /\
           y = nadd (nmul (nsub n1 r) y1) (nmul r y2)).
  Proof.
    intros H x p. destruct (created d ins outs m H) as (a & n & Ha & Hu & Hv & Hw & Hd & Hn & Hs & He).
    rewrite (cached_process m a p Hu Ha). cbn [fst].
    destruct (half_total L a n x 0 Hw Hn Hs ltac:(lia)) as [y Hy]. fold p in Hy. exists y. split; [exact Hy|].
    assert (Sp : forall z, is_nan z = true \/ is_finite z = false -> ixRaw m z = Ok z).
    { intros z Hz. unfold ixRaw. rewrite Hv. unfold imapProcess. change (nisnan z) with (is_nan z). destruct (is_nan z) eqn:Nz; [reflexivity|].
      destruct Hz as [Hz|Hz]; [discriminate|]. assert (I : nisinf z = true) by (destruct z; try discriminate; reflexivity). now rewrite I. }
    assert (A1 : is_nan (nhalf 31745 : fl) = true) by (vm_compute; reflexivity).
    assert (A2 : (nhalf 31744 : fl) = B754_infinity false) by (apply B2SF_inj; vm_compute; reflexivity).
    assert (A3 : (nhalf 64512 : fl) = B754_infinity true) by (apply B2SF_inj; vm_compute; reflexivity).
    split; [|split; [|split]].
    - intro Np. rewrite (half_nan L a _ p 0 Hw Hn Hs ltac:(lia) Np) in Hy. apply Ok_inj in Hy. subst y.
      pose proof (He 31745%Z ltac:(lia)) as E. rewrite (Sp _ (or_introl A1)) in E. apply Ok_inj in E. unfold entryAt. rewrite <- E. exact A1.
    - intro B. rewrite (half_big L a _ p 0 Hw Hn Hs ltac:(lia) B) in Hy. apply Ok_inj in Hy. subst y.
      pose proof (He 31744%Z ltac:(lia)) as E. rewrite A2 in E. rewrite (Sp (B754_infinity false) (or_intror eq_refl)) in E. apply Ok_inj in E. symmetry. exact E.
    - intro B. rewrite (half_small L a _ p 0 Hw Hn Hs ltac:(lia) B) in Hy. apply Ok_inj in Hy. subst y.
      pose proof (He 64512%Z ltac:(lia)) as E. rewrite A3 in E. rewrite (Sp (B754_infinity true) (or_intror eq_refl)) in E. apply Ok_inj in E. symmetry. exact E.
    - intros F B. assert (Fq : is_finite (f32of x) = true).
      { unfold p in F. cbn [nf32 ieeeNum] in F. unfold f64 in F. destruct (f32of x); try reflexivity; discriminate. }
      destruct (f64_single _ Fq) as [_ E]. assert (Bq : Rabs (B2R (f32of x)) < 65520) by (rewrite <- E; exact B).
      destruct (half_blend L a _ (f32of x) 0 Hw Hn Hs ltac:(lia) Fq Bq) as [k1 [k2 [r [El Wt]]]].
      change (f64 (f32of x)) with p in El, Wt. rewrite Hy in El. apply Ok_inj in El.
      exists k1, k2, r, (entryAt L a k1 0), (entryAt L a k2 0). split; [exact Wt|]. destruct Wt as [F1 [F2 _]].
      split; [apply He; destruct F1; lia|]. split; [apply He; destruct F2; lia|]. rewrite El. unfold blend. rewrite Hd. reflexivity.
  Qed.

  Theorem cached_exact d ins outs (m : indexMap fl) :
    newIndexMap (Some d) (Some (ins, outs)) true = Ok m ->
    (forall j, finiteCode j -> exists y, ixRaw m (nhalf j) = Ok y /\ is_finite y = true) ->
    forall x k, let p := nf32 x in
      finiteCode k -> is_finite p = true -> B2R p = halfNumber k -> Bsign p = negativeCode k ->
      exists y z, fst (ixProcess m p) = Ok y /\ fst (ixProcess (ixSetUse m false) p) = Ok z /\ sameNumber y z.
  Proof.
    intros H Fin x k p Fk Fp Ep Sp. destruct (cached_values d ins outs m H x) as (y & Hy & _ & _ & _ & Hb).
    destruct Hb as (k1 & k2 & r & y1 & y2 & W & R1 & R2 & E); [exact Fp|fold p; rewrite Ep; pose proof (number_bound k Fk); lra|].
    destruct (exact_blend L p k1 k2 r k W Fk Ep Sp) as [-> [Fr Zr]].
    assert (Pk : p = nhalf k).
    { destruct (value_code k Fk) as [Fv Ev]. apply B2R_Bsign_inj; [exact Fp|exact Fv|rewrite Ep; symmetry; exact Ev|].
      rewrite Sp. symmetry. destruct (Req_dec (B2R (halfValue k)) 0) as [Z0|NZ].
      - assert (Ku : (k = 0 \/ k = 32768)%Z).
        { rewrite Ev in Z0. unfold halfNumber in Z0. destruct (Z.ltb_spec k 32768).
          - left. apply (magnitude_eq k 0); [destruct Fk; lia|lia|]. rewrite magnitude_0. exact Z0.
          - right. assert (k - 32768 = 0)%Z; [|lia]. apply (magnitude_eq (k - 32768) 0); [destruct Fk; lia|lia|]. rewrite magnitude_0. lra. }
        destruct Ku as [-> | ->]; vm_compute; reflexivity.
      - change (Bsign (halfValue k) = negativeCode k). unfold negativeCode. rewrite Ev in NZ. unfold halfNumber in Ev, NZ.
        destruct (Z.leb_spec 32768 k); destruct (Z.ltb_spec k 32768); try lia.
        + apply (sign_neg (halfValue k)); [exact Fv|]. rewrite Ev. pose proof (magnitude_nonneg (k - 32768) ltac:(destruct Fk; lia)). lra.
        + apply (sign_pos (halfValue k)); [exact Fv|]. rewrite Ev. pose proof (magnitude_nonneg k ltac:(destruct Fk; lia)). lra. }
    exists y, y1. split; [exact Hy|]. split.
    - unfold ixProcess. cbn [ixSetUse ix_use fst]. rewrite Pk. exact R1.
    - rewrite E. destruct W as [_ [F2 _]]. destruct (Fin k2 F2) as [z [Rz Fz]]. rewrite R2 in Rz. apply Ok_inj in Rz. subst z.
      apply (zero_weight L {| a_dims := []; a_vals := []; a_dt := DtList; a_raw := false; a_int := false; a_enc := "string" |} r y1 y2 Fr Zr Fz).
  Qed.

End Ieee.
