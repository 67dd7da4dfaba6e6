(** A cached index map checked at every half. *)
From Coq Require Import Reals Lra Psatz List Bool.
From Flocq Require Import Core BinarySingleNaN.
From Verif Require Import PBase PFacts PIndexCache.
Import ListNotations.
Local Open Scope R_scope.

Lemma raw_above {T} {N : Num T} (a b c d x : T) k u :
  nisnan x = false -> nisinf x = false -> nleb x a = false -> nleb b x = true ->
  ixRaw {| ix_dim := k; ix_vals := Some ([a; b], [c; d]); ix_use := u; ix_cache := None |} x = Ok d.
Proof.
  intros H1 H2 H3 H4. unfold ixRaw, imapProcess. cbn [ix_vals im_in im_out]. rewrite H1, H2.
  change (pyget [a; b] 0) with (Ok a). change (pyget [a; b] (-1)) with (Ok b). cbn [bind]. rewrite H3, H4. reflexivity.
Qed.

Section Ieee.
  Variable L : libm.
  #[local] Hint Extern 0 (Num fl) => exact (ieeeNum L) : typeclass_instances.

  (** A map from [0,1] to 10 bit codes. *)
  Definition tenBits : list fl * list fl := ([n0; n1], [n0; nofZ 1023]).
  Definition tenRaw (k : Z) : res fl := ixRaw {| ix_dim := Some 2%nat; ix_vals := Some tenBits; ix_use := true; ix_cache := None |} (nhalf k).
  Definition finiteCodeb (k : Z) : bool := ((0 <=? k) && (k <? 31744) || (32768 <=? k) && (k <? 64512))%Z%bool.
  Definition tenCheck (k : Z) : bool := match tenRaw k with Ok y => is_finite y || negb (finiteCodeb k) | Err _ => false end.
  Definition codes (f : Z -> bool) : bool :=
    forallb (fun hi => forallb (fun lo => f (256 * Z.of_nat hi + Z.of_nat lo)%Z) (seq 0 256)) (seq 0 256).
  Lemma codes_all f : codes f = true -> forall k, (0 <= k < 65536)%Z -> f k = true.
  Proof.
    intros H k Hk. unfold codes in H. rewrite forallb_forall in H.
    assert (D : (0 <= k / 256 < 256)%Z) by (split; [apply Z.div_pos; lia|apply Z.div_lt_upper_bound; lia]).
    pose proof (Z.mod_pos_bound k 256 ltac:(lia)) as M.
    specialize (H (Z.to_nat (k / 256))). rewrite in_seq in H. specialize (H ltac:(lia)). rewrite forallb_forall in H.
    specialize (H (Z.to_nat (k mod 256))). rewrite in_seq in H. specialize (H ltac:(lia)). rewrite !Z2Nat.id in H by lia.
    rewrite <- Z.div_mod in H by lia. exact H.
  Qed.
  Lemma ten_all : codes tenCheck = true.
  Proof. vm_compute. reflexivity. Qed.
  Lemma ten_new : exists m, newIndexMap (Some 2%nat) (Some tenBits) true = Ok m.
  Proof.
    unfold newIndexMap. cbn [andb isSome]. unfold ixCreate.
    assert (Z5 : Z.of_nat (256 * 256) = 65536%Z) by (rewrite Nat2Z.inj_mul; reflexivity).
    set (n := (256 * 256)%nat) in *. clearbody n.
    assert (O : is_ok (mapM (fun i => tenRaw (Z.of_nat i)) (seq 0 n))).
    { apply mapM_all_ok. intros i Hi. rewrite in_seq in Hi. pose proof (codes_all _ ten_all (Z.of_nat i) ltac:(lia)) as C. unfold tenCheck in C.
      destruct (tenRaw (Z.of_nat i)) as [y|]; [now exists y|discriminate]. }
    destruct O as [t O]. unfold tenRaw in O. rewrite O. cbn [bind]. eexists. reflexivity.
  Qed.
  Lemma ten_raw m : newIndexMap (Some 2%nat) (Some tenBits) true = Ok m -> forall x, ixRaw m x = ixRaw {| ix_dim := Some 2%nat; ix_vals := Some tenBits; ix_use := true; ix_cache := None |} x.
  Proof.
    intros H x. destruct (created _ _ _ m H) as (a & n & _ & _ & V & _). unfold ixRaw. rewrite V. reflexivity.
  Qed.
  Lemma ten_finite m : newIndexMap (Some 2%nat) (Some tenBits) true = Ok m ->
    forall j, finiteCode j -> exists y, ixRaw m (nhalf j) = Ok y /\ is_finite y = true.
  Proof.
    intros H j Fj. rewrite (ten_raw m H). pose proof (codes_all _ ten_all j ltac:(destruct Fj; lia)) as C. unfold tenCheck, tenRaw in C.
    destruct (ixRaw _ _) as [y|]; [|discriminate]. exists y. split; [reflexivity|].
    assert (B : finiteCodeb j = true). { unfold finiteCodeb. destruct Fj as [F|F]; repeat match goal with |- context [Z.leb ?a ?b] => destruct (Z.leb_spec a b) | |- context [Z.ltb ?a ?b] => destruct (Z.ltb_spec a b) end; try lia; reflexivity. }
    rewrite B in C. cbn [negb] in C. rewrite orb_false_r in C. exact C.
  Qed.

  Theorem large_values :
    exists d ins outs (m : indexMap fl) x y z, newIndexMap (Some d) (Some (ins, outs)) true = Ok m /\ is_finite (nf32 x) = true /\
      fst (ixProcess m (nf32 x)) = Ok y /\ fst (ixProcess (ixSetUse m false) (nf32 x)) = Ok z /\ is_finite y = false /\ is_finite z = true.
  Proof.
    destruct ten_new as [m H]. exists 2%nat, (fst tenBits), (snd tenBits), m, (nofZ 70000).
    destruct (cached_values L 2 (fst tenBits) (snd tenBits) m H (nofZ 70000)) as (y & Hy & _ & Big & _).
    assert (B : Bleb (nofZ 65520) (nf32 (nofZ 70000 : fl)) = true) by (vm_compute; reflexivity). specialize (Big B).
    exists y, (nofZ 1023). split; [exact H|]. split; [vm_compute; reflexivity|]. split; [exact Hy|]. split.
    - unfold ixProcess. cbn [ixSetUse ix_use fst]. change (ixRaw (ixSetUse m false) (nf32 (nofZ 70000))) with (ixRaw m (nf32 (nofZ 70000))).
      rewrite (ten_raw m H). apply (raw_above n0 n1 n0 (nofZ 1023)); vm_compute; reflexivity.
    - split; [rewrite Big; reflexivity|vm_compute; reflexivity].
  Qed.

  Lemma ten_case :
    exists m, newIndexMap (Some 2%nat) (Some tenBits) true = Ok m /\
      (forall j, finiteCode j -> exists y, ixRaw m (nhalf j) = Ok y /\ is_finite y = true) /\
      (exists y, fst (ixProcess m (nf32 n1)) = Ok y /\ sameNumber y (nofZ 1023)) /\
      fst (ixProcess (ixDoAll m [CUse false; CValues (Some ([n0; n1], [n1; n1])); CUse true]) (nf32 n1)) = fst (ixProcess m (nf32 n1)).
  Proof.
    destruct ten_new as [m H]. exists m. split; [exact H|]. split; [now apply ten_finite|].
    destruct (cached_exact L 2 (fst tenBits) (snd tenBits) m H (ten_finite m H) n1 15360%Z) as (y & z & Hy & Hz & S).
    - left. lia.
    - vm_compute. reflexivity.
    - assert (E : nf32 (n1 : fl) = n1) by (apply B2SF_inj; vm_compute; reflexivity). rewrite E.
      destruct (ofZ_exact L 1) as [_ F]; [lia|]. change (B2R (n1 : fl)) with (B2R (nofZ 1 : fl)). rewrite F.
      unfold halfNumber, halfMagnitude. cbn. lra.
    - vm_compute. reflexivity.
    - split.
      + exists y. split; [exact Hy|]. unfold ixProcess in Hz. cbn [ixSetUse ix_use fst] in Hz.
        change (ixRaw (ixSetUse m false) (nf32 n1)) with (ixRaw m (nf32 n1)) in Hz. rewrite (ten_raw m H) in Hz.
        assert (R : ixRaw {| ix_dim := Some 2%nat; ix_vals := Some tenBits; ix_use := true; ix_cache := None |} (nf32 n1) = Ok (nofZ 1023))
          by (apply raw_above; vm_compute; reflexivity).
        rewrite R in Hz. apply Ok_inj in Hz. subst z. exact S.
      + destruct (created _ _ _ m H) as (a & n & Ha & Hu & _).
        refine (stale m m (nf32 n1) y [CUse false; CValues (Some ([n0; n1], [n1; n1])); CUse true] (nf32 n1) Hu _ eq_refl).
        rewrite (cached_process m a _ Hu Ha) in Hy |- *. cbn [fst] in Hy. rewrite Hy. reflexivity.
  Qed.
End Ieee.
