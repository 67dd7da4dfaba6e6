(** Index maps with cached evaluation (C76). *)
From Coq Require Import Reals Lra.
From Flocq Require Import BinarySingleNaN.
From Verif Require Import PIndexCache PIndexCacheTen.
Local Open Scope R_scope.

(** With the cache, a float32 [p] gets the blend of what the map gives at the two halfs
    around it; NaN stays NaN, and everything from 65520 on becomes infinite. *)
Theorem C76_cached_values :
  forall (L : libm), let N := ieeeNum L in
  forall d ins outs (m : indexMap fl), newIndexMap (Some d) (Some (ins, outs)) true = Ok m ->
    forall x, let p := nf32 x in exists y, fst (ixProcess m p) = Ok y /\
      (is_nan p = true -> is_nan y = true) /\
      (Bleb (nofZ 65520) p = true -> y = B754_infinity false) /\
      (Bleb p (nofZ (-65520)) = true -> y = B754_infinity true) /\
      (is_finite p = true -> Rabs (B2R p) < 65520 ->
         exists k1 k2 r y1 y2, halfWeight L p k1 k2 r /\ ixRaw m (nhalf k1) = Ok y1 /\ ixRaw m (nhalf k2) = Ok y2 /\
           y = nadd (nmul (nsub n1 r) y1) (nmul r y2)).
Proof. exact cached_values. Qed.
Print Assumptions C76_cached_values.

(** At exact halfs the cache changes nothing, if the map is finite at the halfs. *)
Theorem C76_exact_halfs :
  forall (L : libm), let N := ieeeNum L in
  forall d ins outs (m : indexMap fl), newIndexMap (Some d) (Some (ins, outs)) true = Ok m ->
    (forall j, finiteCode j -> exists y, ixRaw m (nhalf j) = Ok y /\ is_finite y = true) ->
    forall x k, let p := nf32 x in
      finiteCode k -> is_finite p = true -> B2R p = halfNumber k -> Bsign p = negativeCode k ->
      exists y z, fst (ixProcess m p) = Ok y /\ fst (ixProcess (ixSetUse m false) p) = Ok z /\ sameNumber y z.
Proof. exact cached_exact. Qed.
Print Assumptions C76_exact_halfs.

(** Elsewhere it does: a finite value beyond the halfs, clamped without the cache,
    becomes infinite with it. *)
Theorem C76_same_results_refuted :
  forall (L : libm), let N := ieeeNum L in
  exists d ins outs (m : indexMap fl) x y z, newIndexMap (Some d) (Some (ins, outs)) true = Ok m /\ is_finite (nf32 x) = true /\
    fst (ixProcess m (nf32 x)) = Ok y /\ fst (ixProcess (ixSetUse m false) (nf32 x)) = Ok z /\ is_finite y = false /\ is_finite z = true.
Proof. exact large_values. Qed.
Print Assumptions C76_same_results_refuted.

(** A cache built at the first use is the one built at once. *)
Theorem C76_late_cache :
  forall {T} {N : Num T} d ins outs (m : indexMap T) x, newIndexMap (Some d) (Some (ins, outs)) true = Ok m ->
    exists u, newIndexMap (Some d) (Some (ins, outs)) false = Ok u /\ ixProcess (ixSetUse u true) x = ixProcess m x.
Proof. exact @late_cache. Qed.
Print Assumptions C76_late_cache.

(** After one cached evaluation the object gives, with the cache, what it gave then,
    whatever was done to it since: new values, read from a file or set, are ignored. *)
Theorem C76_new_values_ignored :
  forall {T} {N : Num T} (m m' : indexMap T) x0 y0 calls x,
    ix_use m = true -> ixProcess m x0 = (Ok y0, m') -> ix_use (ixDoAll m' calls) = true ->
    fst (ixProcess (ixDoAll m' calls) x) = fst (ixProcess m x).
Proof. exact @stale. Qed.
Print Assumptions C76_new_values_ignored.

(** setValues raises AttributeError on a map with the cache on and a dimension, although
    it has stored the values. *)
Theorem C76_set_values_fails :
  forall {T} (m : indexMap T) d ins outs, ix_use m = true -> ix_dim m = Some d ->
    fst (ixSetValues m (Some (ins, outs))) = Err AttributeError /\
    ix_vals (snd (ixSetValues m (Some (ins, outs)))) = Some (ins, outs) /\
    ix_cache (snd (ixSetValues m (Some (ins, outs)))) = ix_cache m.
Proof. exact @set_values_fails. Qed.
Print Assumptions C76_set_values_fails.

(** A map without values raises IndexError, with the cache or without, and is left as it was,
    unless a cache was built before the values were taken away. *)
Theorem C76_no_values :
  forall {T} {N : Num T} (m : indexMap T) x, ix_vals m = None -> ix_use m = false \/ ix_cache m = None ->
    ixProcess m x = (Err IndexError, m).
Proof. exact @no_values. Qed.
Print Assumptions C76_no_values.

(** The constructor fills the cache only if it is given values and a dimension. *)
Theorem C76_constructor :
  forall {T} {N : Num T} d vals use (m : indexMap T), newIndexMap d vals use = Ok m ->
    ix_dim m = d /\ ix_vals m = vals /\ ix_use m = use /\ (ix_cache m <> None <-> d <> None /\ vals <> None /\ use = true).
Proof. exact @constructor_caches. Qed.
Print Assumptions C76_constructor.
Theorem C76_constructor_succeeds :
  forall {T} {N : Num T} d (vals : option (list T * list T)) use, d = None \/ vals = None \/ use = false -> is_ok (newIndexMap d vals use).
Proof. exact @constructor_incomplete. Qed.
Print Assumptions C76_constructor_succeeds.

Example C76_no_values_case {T} {N : Num T} :
  exists m : indexMap T, newIndexMap None None true = Ok m /\ ix_use m = true /\ ix_cache m = None /\
    forall x, fst (ixProcess m x) = Err IndexError.
Proof. eexists. split; [reflexivity|]. split; [reflexivity|]. split; [reflexivity|]. intro x. now rewrite C76_no_values by (auto; right; reflexivity). Qed.

(** The map 0 -> 0, 1 -> 1023 can be cached, is finite at the halfs, and goes on after its
    values have been replaced. *)
Example C76_case (L : libm) : let N := ieeeNum L in
  exists m, newIndexMap (Some 2%nat) (Some (tenBits L)) true = Ok m /\
    (forall j, finiteCode j -> exists y, ixRaw m (nhalf j) = Ok y /\ is_finite y = true) /\
    (exists y, fst (ixProcess m (nf32 n1)) = Ok y /\ sameNumber y (nofZ 1023)) /\
    fst (ixProcess (ixDoAll m [CUse false; CValues (Some ([n0; n1], [n1; n1])); CUse true]) (nf32 n1)) = fst (ixProcess m (nf32 n1)).
Proof. exact (ten_case L). Qed.
