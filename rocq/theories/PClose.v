(** Rounding errors of the Matrix node. *)
From Coq Require Import Reals Lra Lia ZArith List String Psatz Arith.
From Flocq Require Import Core BinarySingleNaN.
From Verif Require Import SpecClose PBase PStruct PChain PAct PMatrix PIeee PIeeeArith PIeeeRange PRound.
Import ListNotations.
Local Open Scope R_scope.

Lemma indexed_length {A B} (f : nat -> A -> B) l : List.length (indexed f l) = List.length l.
Proof. unfold indexed. now rewrite map_length, combine_length, seq_length, Nat.min_id. Qed.

Lemma getn_at {A} (d : A) l i : (i < List.length l)%nat -> getn l i = Ok (nth i l d).
Proof. intro H. apply getn_some. now apply nth_error_nth'. Qed.

Section Rows.
  Context {T : Type} {N : Num T}.
  Lemma matrixPixel_rows (a : array T) n cols rest st px (row : nat -> T) :
    a_dims a = n :: cols :: rest -> (forall i, (i < n)%nat -> matrixRow a n cols i px = Ok (row i)) ->
    (n <= st)%nat -> List.length px = st ->
    matrixPixel a st px = Ok (indexed (fun i x => if Nat.ltb i n then row i else x) px).
  Proof.
    intros Hd Hr Hn Hp. unfold matrixPixel, dim. rewrite Hd. cbn [getn nth_error bind].
    rewrite Nat.min_l by assumption.
    set (out := indexed (fun i x => if Nat.ltb i n then row i else x) px). assert (Hol : List.length out = st) by (unfold out; now rewrite indexed_length).
    assert (Hout : forall i, (i < st)%nat -> nth_error out i = Some (if Nat.ltb i n then row i else nth i px n0)).
    { intros i Hi. unfold out. rewrite (indexed_nth _ px i (nth i px n0)) by (apply nth_error_nth'; lia). reflexivity. }
    assert (step : forall m x r, nth_error out m = Some x ->
              setn (firstn m out ++ repeat n0 (S r)) m x = Ok (firstn (S m) out ++ repeat n0 r)).
    { intros m x r Hx. assert ((m < List.length out)%nat) by (apply nth_error_Some; congruence).
      rewrite setn_lt by (rewrite app_length, firstn_length, repeat_length; lia). f_equal.
      rewrite firstn_app, firstn_firstn, firstn_length, !Nat.min_l by lia.
      rewrite Nat.sub_diag, firstn_O, app_nil_r.
      rewrite skipn_app, firstn_length, Nat.min_l by lia. rewrite (skipn_all2 (firstn m out)) by (rewrite firstn_length; lia).
      replace (S m - m)%nat with 1%nat by lia. cbn [repeat skipn app].
      rewrite (firstn_S_nth _ m x) by assumption. rewrite <- app_assoc. reflexivity. }
    assert (G1 : forall k, (k <= n)%nat ->
      for_each (seq 0 k) (fun i o => let* s := matrixRow a n cols i px in setn o i s) (repeat n0 st) =
      Ok (firstn k out ++ repeat n0 (st - k))).
    { induction k as [|k IH]; intro Hk; [rewrite Nat.sub_0_r; reflexivity|].
      rewrite seq_S, for_each_app, IH by lia. cbn [bind for_each Nat.add].
      rewrite Hr by lia. cbn [bind].
      replace (st - k)%nat with (S (st - S k)) by lia. rewrite step; [reflexivity|].
      rewrite Hout by lia. assert (Nat.ltb k n = true) as -> by (apply Nat.ltb_lt; lia). reflexivity. }
    rewrite G1 by lia. cbn [bind].
    assert (G2 : forall k, (n + k <= st)%nat ->
      for_each (seq n k) (fun i o => let* v := getn px i in setn o i v) (firstn n out ++ repeat n0 (st - n)) =
      Ok (firstn (n + k) out ++ repeat n0 (st - (n + k)))).
    { induction k as [|k IH]; intro Hk; [rewrite Nat.add_0_r; reflexivity|].
      rewrite seq_S, for_each_app, IH by lia. cbn [bind for_each Nat.add].
      rewrite (getn_at n0 px) by lia. cbn [bind].
      replace (st - (n + k))%nat with (S (st - (n + S k))) by lia. rewrite step.
      - replace (n + S k)%nat with (S (n + k)) by lia. reflexivity.
      - rewrite Hout by lia. assert (Nat.ltb (n + k) n = false) as -> by (apply Nat.ltb_ge; lia). reflexivity. }
    rewrite G2 by lia. replace (n + (st - n))%nat with st by lia. rewrite Nat.sub_diag. cbn [repeat].
    rewrite app_nil_r, firstn_all2 by lia. reflexivity.
  Qed.
End Rows.

(** * Sums *)
Lemma step_error e t c a p a' S A r : 0 < e -> 0 < t -> 1 <= c -> Rabs S <= A ->
  Rabs (a - S) <= c * (e * A + t) -> Rabs (p - r) <= e * Rabs r + t / 2 -> Rabs (a' - (a + p)) <= e * Rabs (a + p) + t / 2 ->
  Rabs (a' - (S + r)) <= (1 + e) * (c + 1) * (e * (A + Rabs r) + t).
Proof.
  intros He Ht Hc HS Ha Hp Ha'.
  pose proof (Rabs_pos r) as Pr. pose proof (Rabs_pos S) as PS.
  assert (T1 : Rabs (a' - (S + r)) <= Rabs (a' - (a + p)) + (Rabs (a - S) + Rabs (p - r))).
  { replace (a' - (S + r)) with ((a' - (a + p)) + ((a - S) + (p - r))) by ring. eapply Rle_trans; [apply Rabs_triang|]. apply Rplus_le_compat_l. apply Rabs_triang. }
  assert (T2 : Rabs (a + p) <= A + Rabs r + (Rabs (a - S) + Rabs (p - r))).
  { replace (a + p) with ((S + r) + ((a - S) + (p - r))) by ring. eapply Rle_trans; [apply Rabs_triang|]. apply Rplus_le_compat; [|apply Rabs_triang].
    eapply Rle_trans; [apply Rabs_triang|]. lra. }
  set (q := Rabs (a - S) + Rabs (p - r)) in *. assert (Hq : q <= c * (e * A + t) + e * Rabs r + t / 2) by (unfold q; lra).
  assert (T3 : Rabs (a' - (S + r)) <= e * (A + Rabs r) + t / 2 + (1 + e) * q) by nra.
  assert (Q1 : 1 * (e * Rabs r) <= c * (e * Rabs r)) by (apply Rmult_le_compat_r; [apply Rmult_le_pos; lra|lra]).
  assert (Q2 : q <= c * (e * (A + Rabs r) + t) + t / 2) by (replace (c * (e * (A + Rabs r) + t)) with (c * (e * A + t) + c * (e * Rabs r)) by ring; lra).
  set (m := e * (A + Rabs r)) in *. assert (0 <= m) by (unfold m; apply Rmult_le_pos; lra).
  apply Rle_trans with (m + t / 2 + (1 + e) * (c * (m + t) + t / 2)); [apply Rle_trans with (1 := T3); apply Rplus_le_compat_l, Rmult_le_compat_l; lra|].
  assert (0 <= e * m) by (apply Rmult_le_pos; lra). assert (0 <= e * t) by (apply Rmult_le_pos; lra). nra.
Qed.
Definition growth (e : R) (k : nat) : R := (INR k + 1) * (1 + 2 * INR k * e).
Lemma growth_step e k : 0 < e -> 2 * INR k * e <= 1 -> (1 + e) * (growth e k + 1) <= growth e (S k).
Proof.
  intros He Hk. unfold growth. rewrite S_INR. pose proof (pos_INR k) as P. set (x := INR k) in *. 
  assert (0 <= 2 * x * e) by nra. set (y := 2 * x * e) in *.
  apply Rle_trans with ((1 + e) * ((x + 2) * (1 + y))); [nra|].
  replace (1 + 2 * (x + 1) * e) with (1 + y + 2 * e) by (unfold y; ring). replace (x + 1 + 1) with (x + 2) by ring.
  replace ((1 + e) * ((x + 2) * (1 + y))) with ((x + 2) * ((1 + e) * (1 + y))) by ring. apply Rmult_le_compat_l; [lra|]. nra.
Qed.
Lemma eps23 : bpow radix2 (-23) = / 8388608.
Proof. reflexivity. Qed.
Lemma growth_bound k : (k <= 1001)%nat -> 1 <= growth (bpow radix2 (-23)) k <= INR k + 2.
Proof.
  intro H. unfold growth. rewrite eps23. pose proof (pos_INR k). assert (INR k <= 1001) by (apply le_INR in H; rewrite (INR_IZR_INZ 1001) in H; exact H). nra.
Qed.

Section Matrix.
  Variable L : libm.
  #[local] Instance NLc : Num fl := ieeeNum L.

  Lemma t148 : bpow radix2 (-149) = bpow radix2 (-148) / 2 /\ 0 < bpow radix2 (-148) <= / 1000000.
  Proof.
    split; [|split; [apply bpow_gt_0|]].
    - change (-149)%Z with (-148 + -1)%Z. rewrite bpow_plus. reflexivity.
    - apply Rle_trans with (bpow radix2 (-20)); [apply bpow_le; lia|]. change (bpow radix2 (-20)) with (/ 1048576). lra.
  Qed.
  Lemma stored_half (z : fl) r : stored z r -> is_finite z = true /\ Rabs (B2R z - r) <= bpow radix2 (-23) * Rabs r + bpow radix2 (-148) / 2.
  Proof. intros [F H]. split; [exact F|]. now rewrite <- (proj1 t148). Qed.
  Lemma amul_close dt (m x : fl) : is_finite m = true -> is_finite x = true -> Rabs (B2R m * B2R x) <= bpow radix2 126 -> stored (amul dt m x) (B2R m * B2R x).
  Proof.
    intros Fm Fx B. assert (H : Rounds (nmul m x) (B2R m * B2R x)) by (apply mult_Rounds; assumption). unfold amul.
    assert (W : stored (nmul m x) (B2R m * B2R x)).
    { destruct (rounds_near (nmul m x) (B2R m * B2R x) H) as [F E]; [eapply Rle_trans; [exact B|apply bpow_le; lia]|]. now apply near_is_stored. }
    destruct dt; try exact W; now apply store.
  Qed.
  Lemma sumTo_abs n f : Rabs (sumTo n f) <= sumTo n (fun j => Rabs (f j)).
  Proof. induction n as [|n IH]; cbn [sumTo]; [rewrite Rabs_R0; lra|]. eapply Rle_trans; [apply Rabs_triang|]. lra. Qed.
  Lemma sumTo_nonneg n f : 0 <= sumTo n (fun j => Rabs (f j)).
  Proof. eapply Rle_trans; [apply Rabs_pos|apply (sumTo_abs n f)]. Qed.
  Lemma sumTo_mono k n f : (k <= n)%nat -> sumTo k (fun j => Rabs (f j)) <= sumTo n (fun j => Rabs (f j)).
  Proof. induction 1 as [|n H IH]; [lra|]. cbn [sumTo]. pose proof (Rabs_pos (f n)). lra. Qed.

  (** One more term on a sum. *)
  Lemma add_close k (acc p : fl) S A r : (k <= 1000)%nat -> Rabs S <= A -> A + Rabs r <= bpow radix2 125 ->
    within (growth (bpow radix2 (-23)) k) A S acc -> stored p r ->
    within (growth (bpow radix2 (-23)) (1 + k)) (A + Rabs r) (S + r) (nf32 (nadd acc p)).
  Proof.
    intros Hk HS HA [Fa Ea] Hp. destruct (stored_half p r Hp) as [Fp Ep]. destruct t148 as [T1 [T2 T3]].
    destruct (growth_bound k) as [G1 G2]; [lia|]. assert (K : INR k <= 1000) by (apply le_INR in Hk; rewrite (INR_IZR_INZ 1000) in Hk; exact Hk).
    pose proof eps23 as E23. set (e := bpow radix2 (-23)) in *. set (t := bpow radix2 (-148)) in *.
    pose proof (Rabs_pos r). pose proof (Rabs_pos S). pose proof (pos_INR k).
    assert (M : bpow radix2 126 = 2 * bpow radix2 125) by exact (bpow_plus radix2 1 125).
    assert (G : 1 <= bpow radix2 125) by (change 1 with (bpow radix2 0); apply bpow_le; lia).
    assert (B : Rabs (B2R acc + B2R p) <= bpow radix2 126).
    { replace (B2R acc + B2R p) with ((S + r) + ((B2R acc - S) + (B2R p - r))) by ring. eapply Rle_trans; [apply Rabs_triang|].
      pose proof (Rabs_triang S r). pose proof (Rabs_triang (B2R acc - S) (B2R p - r)).
      assert (Pe : 0 <= e * A + t) by (apply Rplus_le_le_0_compat; [apply Rmult_le_pos; lra|lra]).
      assert (growth e k * (e * A + t) <= 1002 * (e * A + t)) by (apply Rmult_le_compat_r; [exact Pe|lra]).
      rewrite E23 in *. lra. }
    assert (HR : Rounds (nadd acc p) (B2R acc + B2R p)) by (apply plus_Rounds; assumption).
    destruct (stored_half _ _ (store (nadd acc p) _ HR B)) as [F E]. split; [exact F|].
    eapply Rle_trans; [apply (step_error e t (growth e k) (B2R acc) (B2R p) _ S A r); try assumption; lra|].
    apply Rmult_le_compat_r; [apply Rplus_le_le_0_compat; [apply Rmult_le_pos; [apply bpow_ge_0|lra]|apply bpow_ge_0]|]. apply growth_step; [lra|]. rewrite E23. lra.
  Qed.

  Lemma row_close (a : array fl) n cols i coef offset px :
    (n * cols <= List.length (a_vals a))%nat ->
    (forall i j, (i < n)%nat -> (j < n)%nat -> nth (i * cols + j) (a_vals a) n0 = coef i j) ->
    match offset with None => cols = n | Some o => (cols = n + 1)%nat /\ forall i, (i < n)%nat -> nth (i * cols + n) (a_vals a) n0 = o i end ->
    (i < n)%nat -> (n <= List.length px)%nat -> (n <= 1000)%nat ->
    exists y, matrixRow a n cols i px = Ok y /\
      (rowFinite n (coef i) (option_map (fun o => o i) offset) px -> rowSize n (coef i) (option_map (fun o => o i) offset) px <= bpow radix2 125 ->
       within (INR n + 3) (rowSize n (coef i) (option_map (fun o => o i) offset) px) (rowExact n (coef i) (option_map (fun o => o i) offset) px) y).
  Proof.
    intros Hl Hc Ho Hi Hp Hn.
    assert (Hcols : (n <= cols)%nat) by (destruct offset; lia).
    set (x := fun j => nth j px (B754_zero false)).
    assert (G : forall k, (k <= n)%nat -> exists acc,
      for_each (seq 0 k) (fun j acc => let* m := getn (a_vals a) (j + i * cols) in let* v := getn px j in Ok (nf32 (nadd acc (amul (a_dt a) m v)))) n0 = Ok acc /\
      ((forall j, (j < n)%nat -> is_finite (coef i j) = true /\ is_finite (x j) = true) ->
       sumTo n (fun j => Rabs (B2R (coef i j) * B2R (x j))) <= bpow radix2 125 ->
       within (growth (bpow radix2 (-23)) k) (sumTo k (fun j => Rabs (B2R (coef i j) * B2R (x j)))) (sumTo k (fun j => B2R (coef i j) * B2R (x j))) acc)).
    { induction k as [|k IH]; intro Hk.
      { exists n0. split; [reflexivity|]. intros _ _. split; [reflexivity|]. cbn [sumTo]. rewrite Rmult_0_r, Rplus_0_l.
        replace (B2R (n0 : fl) - 0) with 0 by (change (B2R (n0 : fl)) with 0; ring). rewrite Rabs_R0. destruct (growth_bound 0) as [G1 _]; [lia|]. destruct t148 as [_ [T _]]. nra. }
      destruct IH as [acc [E C]]; [lia|].
      rewrite seq_S, for_each_app, E. cbn [bind for_each Nat.add].
      assert ((k + i * cols < List.length (a_vals a))%nat) by nia.
      rewrite (getn_at n0 (a_vals a)) by lia. rewrite (getn_at (B754_zero false) px) by lia. cbn [bind]. eexists. split; [reflexivity|].
      intros F B. specialize (C F B). cbn [sumTo]. rewrite (Nat.add_comm k (i * cols)), Hc by lia.
      pose proof (sumTo_mono (S k) n (fun j => B2R (coef i j) * B2R (x j)) Hk) as M. cbn [sumTo] in M.
      assert (B1 : sumTo k (fun j => Rabs (B2R (coef i j) * B2R (x j))) + Rabs (B2R (coef i k) * B2R (x k)) <= bpow radix2 125) by lra.
      pose proof (sumTo_nonneg k (fun j => B2R (coef i j) * B2R (x j))) as Z.
      apply (add_close k); [lia|apply (sumTo_abs k (fun j => B2R (coef i j) * B2R (x j)))|exact B1|exact C|].
      apply amul_close; [apply (F k); lia|apply (F k); lia|]. apply Rle_trans with (bpow radix2 125); [|apply bpow_le; lia].
      eapply Rle_trans; [|exact B1]. apply Rle_trans with (0 + Rabs (B2R (coef i k) * B2R (x k))); [rewrite Rplus_0_l; apply Rle_refl|]. now apply Rplus_le_compat_r. }
    destruct (G n) as [acc [E C]]; [lia|]. unfold matrixRow. cbv zeta. rewrite E. cbn [bind].
    assert (W : forall (m m' r r' : R) z k, 0 <= m -> (k <= 1001)%nat -> (k <= n + 1)%nat -> m = m' -> r = r' -> within (growth (bpow radix2 (-23)) k) m r z -> within (INR n + 3) m' r' z).
    { intros m m' r r' z k Pm Hk Hk' <- <- [F B]. split; [exact F|]. eapply Rle_trans; [exact B|]. apply Rmult_le_compat_r.
      - destruct t148 as [_ [T _]]. pose proof eps23 as Q. set (e := bpow radix2 (-23)) in *. assert (0 < e) by (rewrite Q; lra). nra.
      - destruct (growth_bound k Hk) as [_ G2]. apply le_INR in Hk'. rewrite plus_INR in Hk'. change (INR 1) with 1 in Hk'. lra. }
    pose proof (sumTo_nonneg n (fun j => B2R (coef i j) * B2R (x j))) as Z. cbv beta in Z.
    unfold rowFinite, rowSize, rowExact. fold x. destruct offset as [o|]; cbn [option_map].
    - destruct Ho as [-> Ho]. rewrite Nat.eqb_refl. rewrite (getn_at n0 (a_vals a)) by nia. cbn [bind]. eexists. split; [reflexivity|].
      intros [F Fo] B. replace (i * (n + 1) + (n + 1) - 1)%nat with (i * (n + 1) + n)%nat by lia. rewrite Ho by exact Hi.
      pose proof (Rabs_pos (B2R (o i))) as Po.
      assert (Z2 : 0 <= sumTo n (fun j => Rabs (B2R (coef i j) * B2R (x j))) + Rabs (B2R (o i))) by now apply Rplus_le_le_0_compat.
      assert (B2 : sumTo n (fun j => Rabs (B2R (coef i j) * B2R (x j))) <= bpow radix2 125).
      { eapply Rle_trans; [|exact B]. rewrite <- (Rplus_0_r (sumTo n _)) at 1. now apply Rplus_le_compat_l. }
      assert (So : stored (o i) (B2R (o i))).
      { split; [exact Fo|]. rewrite Rminus_diag_eq, Rabs_R0 by reflexivity. apply Rplus_le_le_0_compat; [apply Rmult_le_pos; [apply bpow_ge_0|apply Rabs_pos]|apply bpow_ge_0]. }
      refine (W _ _ _ _ _ (1 + n)%nat Z2 _ _ eq_refl eq_refl (add_close n acc (o i) _ _ (B2R (o i)) Hn (sumTo_abs n _) B (C F B2) So)); lia.
    - subst cols. replace (Nat.eqb n (n + 1)) with false by (symmetry; apply Nat.eqb_neq; lia). exists acc. split; [reflexivity|].
      rewrite !Rplus_0_r. intros [F _] B. refine (W _ _ _ _ _ n Z _ _ eq_refl eq_refl (C F B)); lia.
  Qed.

  Theorem matrix_close c (h : header fl) n coef offset st :
    isMatrixOf h n coef offset -> (n <= 1000)%nat -> (1 <= st)%nat -> (n <= st)%nat ->
    exists F, actsPerPixel c (Node h BMatrix) st F /\ forall px, List.length px = st ->
      List.length (F px) = st /\
      (forall i, (n <= i)%nat -> nth_error (F px) i = nth_error px i) /\
      forall i, (i < n)%nat -> exists y, nth_error (F px) i = Some y /\
        (rowFinite n (coef i) (option_map (fun o => o i) offset) px -> rowSize n (coef i) (option_map (fun o => o i) offset) px <= bpow radix2 125 ->
         within (INR n + 3) (rowSize n (coef i) (option_map (fun o => o i) offset) px) (rowExact n (coef i) (option_map (fun o => o i) offset) px) y).
  Proof.
    intros [a [cols [rest [Hh [Ha [Hd [Hl [Hc Ho]]]]]]]] Hk H1 Hn.
    set (row := fun px i => match matrixRow a n cols i px with Ok y => y | Err _ => n0 end).
    exists (fun px => indexed (fun i x => if Nat.ltb i n then row px i else x) px).
    assert (Hrow : forall px i, List.length px = st -> (i < n)%nat -> matrixRow a n cols i px = Ok (row px i) /\ 
      (rowFinite n (coef i) (option_map (fun o => o i) offset) px -> rowSize n (coef i) (option_map (fun o => o i) offset) px <= bpow radix2 125 ->
       within (INR n + 3) (rowSize n (coef i) (option_map (fun o => o i) offset) px) (rowExact n (coef i) (option_map (fun o => o i) offset) px) (row px i))).
    { intros px i Hp Hi. destruct (row_close a n cols i coef offset px Hl Hc Ho Hi) as [y [E C]]; [lia|lia|]. unfold row. rewrite E. split; [reflexivity|exact C]. }
    split.
    - intro values. cbn [nodeProcess]. rewrite matrix_form by lia. depths Hh. rewrite Ha.
      apply pixelwise_pixels; [lia|]. intros px Hp. rewrite indexed_length. split; [|assumption].
      apply (matrixPixel_rows a n cols rest st px); [exact Hd| |exact Hn|exact Hp]. intros i Hi. now apply Hrow.
    - intros px Hp. split; [now rewrite indexed_length|]. split.
      + intros i Hi. destruct (nth_error px i) as [x|] eqn:E.
        * rewrite (indexed_nth _ px i x E). assert (Nat.ltb i n = false) as -> by (apply Nat.ltb_ge; lia). reflexivity.
        * apply nth_error_None in E. apply nth_error_None. now rewrite indexed_length.
      + intros i Hi. exists (row px i). split; [|now apply Hrow].
        rewrite (indexed_nth _ px i (nth i px n0)) by (apply nth_error_nth'; lia). assert (Nat.ltb i n = true) as -> by now apply Nat.ltb_lt. reflexivity.
  Qed.
End Matrix.
