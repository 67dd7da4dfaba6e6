(** Rounding errors of nodes that hold other nodes. *)
From Coq Require Import Reals Lra Lia ZArith List String.
From Flocq Require Import Core BinarySingleNaN.
From Verif Require Import SpecErrors PBase PFacts PAct PChain PList PDepth PReal PIeee PIeeeArith PRound PClose PCloseLut PClose3D PReadBack PReadBack3 PErrors.
Import ListNotations.
Local Open Scope string_scope.
Local Open Scope list_scope.
Local Open Scope R_scope.

Section Nest.
  Variable L : libm.
  #[local] Hint Extern 0 (Num fl) => exact (ieeeNum L) : typeclass_instances.

  Theorem group_follows c h ps B K E B' :
    (forall e, budget c ps B e B' (K * e + E)) -> follows c (Node h (BGroup ps)) B K E B'.
  Proof.
    intros Hb px px' e S A. change (exactNode (Node h (BGroup ps))) with (Node (exactHeader h) (BGroup (map exactNode ps))).
    cbn [nodeProcess]. rewrite !outcome_bind, !chain_out. cbn [po_out]. exact (budget_chain L _ _ _ _ _ _ (Hb e) _ _ _ _ _ S A).
  Qed.

  Theorem reference_follows c h w a v els ps B K E B' : B <= bpow radix2 126 ->
    let e0 := bpow radix2 (-23) * B + bpow radix2 (-149) in
    (forall e, budget c ps (B + e0) e B' (K * e + E)) ->
    follows c (Node h (BReference w (Some (PList a v els ps)))) B K (K * e0 + E) B'.
  Proof.
    intros HB e0 Hb px px' e S A. destruct (three px (proj1 S)) as (x & y & z & ->). apply apart3 in A. destruct A as (x' & y' & z' & -> & A1 & A2 & A3).
    apply sized3 in S.
    assert (Kn : forall (u : fl) u', is_finite u = true /\ Rabs (B2R u) <= B -> Rabs (B2R u - u') <= e ->
      (is_finite (nf32 u) = true /\ Rabs (B2R (nf32 u)) <= B + e0) /\ Rabs (B2R (nf32 u) - u') <= e + e0).
    { intros u u' [F Bu] Au. change (nf32 u) with (f64 (f32of u)).
      destruct (near_stored u (B2R u) F (self_near u F)) as [F' Sx]; [lra|].
      assert (S' : Rabs (B2R (f64 (f32of u)) - B2R u) <= e0).
      { eapply Rle_trans; [exact Sx|]. unfold e0. apply Rplus_le_compat_r, Rmult_le_compat_l; [apply bpow_ge_0|exact Bu]. }
      split; [split; [exact F'|]|].
      - replace (B2R (f64 (f32of u))) with ((B2R (f64 (f32of u)) - B2R u) + B2R u) by ring. eapply Rle_trans; [apply Rabs_triang|]. lra.
      - replace (B2R (f64 (f32of u)) - u') with ((B2R (f64 (f32of u)) - B2R u) + (B2R u - u')) by ring. eapply Rle_trans; [apply Rabs_triang|]. lra. }
    destruct S as (S1 & S2 & S3). destruct (Kn x x' S1 A1) as [T1 D1]. destruct (Kn y y' S2 A2) as [T2 D2]. destruct (Kn z z' S3 A3) as [T3 D3].
    change (exactNode (Node h (BReference w (Some (PList a v els ps))))) with (Node (exactHeader h) (BReference w (Some (PList a (exactVals v) els (map exactNode ps))))).
    cbn [nodeProcess]. rewrite !bind_ret, !outcome_bind, !chain_out. cbn [po_out map].
    replace (K * e + (K * e0 + E)) with (K * (e + e0) + E) by ring.
    apply (budget_chain L _ _ _ _ _ _ (Hb (e + e0))); [apply sized3; auto|now apply apart3_intro].
  Qed.
End Nest.
