(** Nodes that leave every sample as it is, in IEEE arithmetic. *)
From Coq Require Import Reals Lra Lia ZArith List String Psatz Arith.
From Flocq Require Import Core BinarySingleNaN.
From Verif Require Import SpecSame PBase PFacts PStruct PChain PAct PMatrix PIeee PIeeeArith PIeeeRange PLut1D PLut3D PHalfLut PPack PRound PClose PCloseLut PClose3D PRelative.
Import ListNotations.
Local Open Scope R_scope.

Lemma Forall2_nth_error_intro {A B} (P : A -> B -> Prop) l l' : List.length l' = List.length l ->
  (forall i x y, nth_error l i = Some x -> nth_error l' i = Some y -> P x y) -> Forall2 P l l'.
Proof.
  revert l'. induction l as [|a l IH]; intros [|b l'] HL H; try discriminate; constructor.
  - exact (H 0%nat a b eq_refl eq_refl).
  - apply IH; [now injection HL|]. intros i x y Hx Hy. exact (H (S i) x y Hx Hy).
Qed.
Lemma nth_error_firstn_lt {A} (l : list A) n j : (j < n)%nat -> nth_error (firstn n l) j = nth_error l j.
Proof. revert n l. induction j as [|j IH]; intros [|n] [|a l] H; try lia; try reflexivity. cbn. apply IH. lia. Qed.

Lemma single_sg (x : fl) : isSingle x -> sg (B2R x).
Proof. intros (_ & H & _). now apply format_sg. Qed.

Section Same.
  Variable L : libm.
  #[local] Instance NId : Num fl := ieeeNum L.

  Lemma single_f32 (x : fl) : isSingle x -> is_finite (nf32 x) = true /\ B2R (nf32 x) = B2R x.
  Proof.
    intros (F & G & B). change (generic_format radix2 (SpecFloat.fexp 24 128) (B2R x)) in G.
    destruct (toFormat_exact (p2 := 24) (e2 := 128) x F G B) as [F1 E1].
    destruct (widen_exact (p2 := 53) (e2 := 1024) (toFormat 24 128 x)) as [F3 E3]; try lia; [exact F1|].
    change (nf32 x) with (toFormat 53 1024 (toFormat 24 128 x)). split; [exact F3|]. now rewrite E3.
  Qed.
  Lemma value_single (x y : fl) : isSingle x -> is_finite y = true -> B2R y = B2R x -> isSingle y.
  Proof. intros (F & G & B) Fy E. split; [exact Fy|]. rewrite E. now split. Qed.
  Lemma zero_single (y : fl) : is_finite y = true -> B2R y = 0 -> isSingle y.
  Proof.
    intros Fy E. split; [exact Fy|]. rewrite E. split; [apply generic_format_0|]. rewrite Rabs_R0. apply bpow_gt_0.
  Qed.

  (** ** Matrix *)
  Lemma mult_value (m x : fl) r : is_finite m = true -> is_finite x = true -> B2R m * B2R x = r -> sg r -> Rabs r < bpow radix2 128 ->
    is_finite (nmul m x) = true /\ B2R (nmul m x) = r.
  Proof.
    intros Fm Fx E S B. assert (H : Rounds (nmul m x) r) by (rewrite <- E; apply mult_Rounds; assumption).
    destruct (Rounds_finite _ _ 128 H) as [F V]; [lra|lia|lia|]. split; [exact F|]. rewrite V. apply rnd_format. apply sg_format; [exact S|lia|lia].
  Qed.
  Lemma plus_value (m x : fl) r : is_finite m = true -> is_finite x = true -> B2R m + B2R x = r -> sg r -> Rabs r < bpow radix2 128 ->
    is_finite (nadd m x) = true /\ B2R (nadd m x) = r.
  Proof.
    intros Fm Fx E S B. assert (H : Rounds (nadd m x) r) by (rewrite <- E; apply plus_Rounds; assumption).
    destruct (Rounds_finite _ _ 128 H) as [F V]; [lra|lia|lia|]. split; [exact F|]. rewrite V. apply rnd_format. apply sg_format; [exact S|lia|lia].
  Qed.
  Lemma sg_single (x : fl) : is_finite x = true -> sg (B2R x) -> Rabs (B2R x) < bpow radix2 128 -> isSingle x.
  Proof. intros F S B. split; [exact F|]. split; [|exact B]. change (generic_format radix2 (SpecFloat.fexp 24 128) (B2R x)). apply sg_format; [exact S|lia|lia]. Qed.

  Lemma row_same (a : array fl) n cols i coef offset px :
    (n * cols <= List.length (a_vals a))%nat ->
    (forall i j, (i < n)%nat -> (j < n)%nat -> nth (i * cols + j) (a_vals a) n0 = coef i j) ->
    match offset with None => cols = n | Some o => (cols = n + 1)%nat /\ forall i, (i < n)%nat -> nth (i * cols + n) (a_vals a) n0 = o i end ->
    (i < n)%nat -> (n <= List.length px)%nat -> identityCoef coef n -> zeroOffset offset n ->
    (forall j, (j < n)%nat -> isSingle (nth j px (B754_zero false))) ->
    exists y, matrixRow a n cols i px = Ok y /\ is_finite y = true /\ B2R y = B2R (nth i px (B754_zero false)).
  Proof.
    intros Hl Hc Ho Hi Hp HI HO HS. assert (Hcols : (n <= cols)%nat) by (destruct offset; lia).
    set (x := fun j => nth j px (B754_zero false)) in *.
    assert (B128 := bpow_gt_0 radix2 128).
    assert (G : forall k, (k <= n)%nat -> exists acc,
      for_each (seq 0 k) (fun j acc => let* m := getn (a_vals a) (j + i * cols) in let* v := getn px j in Ok (nf32 (nadd acc (amul (a_dt a) m v)))) n0 = Ok acc /\
      is_finite acc = true /\ B2R acc = if Nat.ltb i k then B2R (x i) else 0).
    { induction k as [|k IH]; intro Hk.
      { exists n0. split; [reflexivity|]. split; reflexivity. }
      destruct IH as [acc [E [Fa Ea]]]; [lia|].
      rewrite seq_S, for_each_app, E. cbn [bind for_each Nat.add].
      assert ((k + i * cols < List.length (a_vals a))%nat) by nia.
      rewrite (getn_at n0 (a_vals a)) by lia. rewrite (getn_at (B754_zero false) px) by lia. cbn [bind]. eexists. split; [reflexivity|].
      rewrite (Nat.add_comm k (i * cols)), Hc by lia.
      destruct (HI i k Hi ltac:(lia)) as [Fc Ec]. pose proof (HS k ltac:(lia)) as Sk. assert (Sk' := Sk). destruct Sk' as (Fk & _ & Bk). fold (x k) in Sk, Fk, Bk |- *.
      set (t := if Nat.eqb i k then B2R (x k) else 0).
      assert (St : sg t) by (unfold t; destruct (Nat.eqb i k); [now apply single_sg|apply sg_0]).
      assert (Bt : Rabs t < bpow radix2 128) by (unfold t; destruct (Nat.eqb i k); [exact Bk|rewrite Rabs_R0; exact B128]).
      destruct (mult_value (coef i k) (x k) t Fc Fk) as [Fm Em]; [rewrite Ec; unfold t; destruct (Nat.eqb i k); ring|exact St|exact Bt|].
      assert (Am : is_finite (amul (a_dt a) (coef i k) (x k)) = true /\ B2R (amul (a_dt a) (coef i k) (x k)) = t).
      { assert (W : is_finite (nf32 (nmul (coef i k) (x k))) = true /\ B2R (nf32 (nmul (coef i k) (x k))) = t).
        { destruct (single_f32 (nmul (coef i k) (x k))) as [F1 E1]; [apply sg_single; [exact Fm|now rewrite Em|now rewrite Em]|]. split; [exact F1|now rewrite E1]. }
        unfold amul. destruct (a_dt a); try exact W; now split. }
      destruct Am as [Fam Eam]. set (v := amul (a_dt a) (coef i k) (x k)) in *.
      set (w := if Nat.ltb i (S k) then B2R (x i) else 0).
      assert (Hw : B2R acc + B2R v = w).
      { rewrite Ea, Eam. unfold w, t. destruct (Nat.eqb_spec i k) as [->|Ne].
        - rewrite Nat.ltb_irrefl. assert (Nat.ltb k (S k) = true) as -> by (apply Nat.ltb_lt; lia). ring.
        - destruct (Nat.ltb_spec i k) as [A|A]; destruct (Nat.ltb_spec i (S k)) as [C|C]; try lia; ring. }
      assert (Sw : sg w) by (unfold w; destruct (Nat.ltb i (S k)); [apply single_sg; now apply HS|apply sg_0]).
      assert (Bw : Rabs w < bpow radix2 128) by (unfold w; destruct (Nat.ltb i (S k)); [apply (HS i Hi)|rewrite Rabs_R0; exact B128]).
      destruct (plus_value acc v w Fa Fam Hw Sw Bw) as [Fs Es].
      destruct (single_f32 (nadd acc v)) as [F1 E1]; [apply sg_single; [exact Fs|now rewrite Es|now rewrite Es]|]. split; [exact F1|]. now rewrite E1. }
    destruct (G n) as [acc [E [Fa Ea]]]; [lia|]. unfold matrixRow. cbv zeta. rewrite E. cbn [bind].
    assert (Nat.ltb i n = true) as Q by now apply Nat.ltb_lt. rewrite Q in Ea.
    destruct offset as [o|].
    - destruct Ho as [-> Ho]. rewrite Nat.eqb_refl. rewrite (getn_at n0 (a_vals a)) by nia. cbn [bind]. eexists. split; [reflexivity|].
      replace (i * (n + 1) + (n + 1) - 1)%nat with (i * (n + 1) + n)%nat by lia. rewrite Ho by exact Hi.
      destruct (HO i Hi) as [Fo Eo]. pose proof (HS i Hi) as Si. assert (Si' := Si). destruct Si' as (_ & _ & Bi).
      destruct (plus_value acc (o i) (B2R (x i)) Fa Fo) as [Fs Es]; [rewrite Ea, Eo; ring|now apply single_sg|exact Bi|].
      destruct (single_f32 (nadd acc (o i))) as [F1 E1]; [apply sg_single; [exact Fs|rewrite Es; now apply single_sg|now rewrite Es]|]. split; [exact F1|now rewrite E1].
    - subst cols. replace (Nat.eqb n (n + 1)) with false by (symmetry; apply Nat.eqb_neq; lia). exists acc. split; [reflexivity|]. now split.
  Qed.

  (** An infinite or NaN sample spoils the rows of the other channels. *)
  Lemma nan_add (p q : fl) : is_nan p = true \/ is_nan q = true -> is_nan (nadd p q) = true.
  Proof. intros [H|H]; [destruct p; try discriminate; destruct q; reflexivity|destruct q; try discriminate; destruct p; reflexivity]. Qed.
  Lemma nan_f32 (p : fl) : is_nan p = true -> is_nan (nf32 p) = true.
  Proof. intro H. change (is_nan (toFormat 53 1024 (toFormat 24 128 p)) = true). now rewrite !toFormat_nan. Qed.
  Lemma nan_mult_0 (m x : fl) : is_finite m = true -> B2R m = 0 -> is_finite x = false -> is_nan (nmul m x) = true.
  Proof.
    intros Fm Em Fx. assert (exists s, m = B754_zero s) as [s ->].
    { destruct m as [s| | |s p e Hb]; try discriminate; [now exists s|]. cbn in Em. apply eq_0_F2R in Em. destruct s; discriminate. }
    destruct x; try discriminate; reflexivity.
  Qed.
  Lemma nan_amul dt (m x : fl) : is_finite m = true -> B2R m = 0 -> is_finite x = false -> is_nan (amul dt m x) = true.
  Proof. intros Fm Em Fx. pose proof (nan_mult_0 m x Fm Em Fx). unfold amul. destruct dt; try assumption; now apply nan_f32. Qed.
  Lemma row_spoilt (a : array fl) n cols i j coef offset px :
    (n * cols <= List.length (a_vals a))%nat ->
    (forall i j, (i < n)%nat -> (j < n)%nat -> nth (i * cols + j) (a_vals a) n0 = coef i j) ->
    match offset with None => cols = n | Some o => (cols = n + 1)%nat /\ forall i, (i < n)%nat -> nth (i * cols + n) (a_vals a) n0 = o i end ->
    (i < n)%nat -> (j < n)%nat -> i <> j -> (n <= List.length px)%nat -> identityCoef coef n ->
    is_finite (nth j px (B754_zero false)) = false ->
    exists y, matrixRow a n cols i px = Ok y /\ is_nan y = true.
  Proof.
    intros Hl Hc Ho Hi Hj Hij Hp HI HF. assert (Hcols : (n <= cols)%nat) by (destruct offset; lia).
    assert (G : forall k, (k <= n)%nat -> exists acc,
      for_each (seq 0 k) (fun j acc => let* m := getn (a_vals a) (j + i * cols) in let* v := getn px j in Ok (nf32 (nadd acc (amul (a_dt a) m v)))) n0 = Ok acc /\
      ((j < k)%nat -> is_nan acc = true)).
    { induction k as [|k IH]; intro Hk.
      { exists n0. split; [reflexivity|]. lia. }
      destruct IH as [acc [E Na]]; [lia|].
      rewrite seq_S, for_each_app, E. cbn [bind for_each Nat.add].
      assert ((k + i * cols < List.length (a_vals a))%nat) by nia.
      rewrite (getn_at n0 (a_vals a)) by lia. rewrite (getn_at (B754_zero false) px) by lia. cbn [bind]. eexists. split; [reflexivity|].
      rewrite (Nat.add_comm k (i * cols)), Hc by lia. intro Hjk. apply nan_f32, nan_add. destruct (Nat.eq_dec j k) as [->|Ne].
      - right. destruct (HI i k Hi ltac:(lia)) as [Fc Ec]. replace (Nat.eqb i k) with false in Ec by (symmetry; now apply Nat.eqb_neq). now apply nan_amul.
      - left. apply Na. lia. }
    destruct (G n) as [acc [E Na]]; [lia|]. specialize (Na Hj). unfold matrixRow. cbv zeta. rewrite E. cbn [bind].
    destruct offset as [o|].
    - destruct Ho as [-> Ho]. rewrite Nat.eqb_refl. rewrite (getn_at n0 (a_vals a)) by nia. cbn [bind]. eexists. split; [reflexivity|]. apply nan_f32, nan_add. now left.
    - subst cols. replace (Nat.eqb n (n + 1)) with false by (symmetry; apply Nat.eqb_neq; lia). exists acc. now split.
  Qed.

  Lemma row_ok (a : array fl) n cols i px : (n * cols <= List.length (a_vals a))%nat -> (n <= cols)%nat -> (cols <= n + 1)%nat -> (i < n)%nat -> (n <= List.length px)%nat ->
    exists y, matrixRow a n cols i px = Ok y.
  Proof.
    intros Hl Hc Hc' Hi Hp.
    assert (G : forall k, (k <= n)%nat -> exists acc,
      for_each (seq 0 k) (fun j acc => let* m := getn (a_vals a) (j + i * cols) in let* v := getn px j in Ok (nf32 (nadd acc (amul (a_dt a) m v)))) n0 = Ok acc).
    { induction k as [|k IH]; intro Hk; [now exists n0|]. destruct IH as [acc E]; [lia|].
      rewrite seq_S, for_each_app, E. cbn [bind for_each Nat.add].
      assert ((k + i * cols < List.length (a_vals a))%nat) by nia.
      rewrite (getn_at n0 (a_vals a)) by lia. rewrite (getn_at (B754_zero false) px) by lia. cbn [bind]. eexists. reflexivity. }
    destruct (G n) as [acc E]; [lia|]. unfold matrixRow. cbv zeta. rewrite E. cbn [bind].
    destruct (Nat.eqb_spec cols (n + 1)) as [->|]; [|now exists acc].
    rewrite (getn_at n0 (a_vals a)) by nia. cbn [bind]. eexists. reflexivity.
  Qed.

  Lemma identity_form c (h : header fl) n coef offset st :
    isMatrixOf h n coef offset -> (1 <= st)%nat -> (n <= st)%nat -> identityCoef coef n -> zeroOffset offset n ->
    exists row, actsPerPixel c (Node h BMatrix) st (fun px => indexed (fun i x => if Nat.ltb i n then row px i else x) px) /\
      forall px i, List.length px = st -> (i < n)%nat ->
        ((forall j, (j < n)%nat -> isSingle (nth j px (B754_zero false))) -> is_finite (row px i) = true /\ B2R (row px i) = B2R (nth i px (B754_zero false))) /\
        (forall j, (j < n)%nat -> i <> j -> is_finite (nth j px (B754_zero false)) = false -> is_nan (row px i) = true).
  Proof.
    intros [a [cols [rest [Hh [Ha [Hd [Hl [Hc Ho]]]]]]]] H1 Hn HI HO.
    set (row := fun px i => match matrixRow a n cols i px with Ok y => y | Err _ => n0 end). exists row. split.
    - intro values. cbn [nodeProcess]. rewrite matrix_form by lia. depths Hh. rewrite Ha.
      apply pixelwise_pixels; [lia|]. intros px Hp. rewrite indexed_length. split; [|assumption].
      apply (matrixPixel_rows a n cols rest st px); [exact Hd| |exact Hn|exact Hp]. intros i Hi.
      destruct (row_ok a n cols i px Hl) as [y E]; [destruct offset; lia|destruct offset; lia|exact Hi|lia|]. unfold row. now rewrite E.
    - intros px i Hp Hi. split.
      + intro HS. destruct (row_same a n cols i coef offset px Hl Hc Ho Hi ltac:(lia) HI HO HS) as [y [E C]]. unfold row. now rewrite E.
      + intros j Hj Hij HF. destruct (row_spoilt a n cols i j coef offset px Hl Hc Ho Hi Hj Hij ltac:(lia) HI HF) as [y [E C]]. unfold row. now rewrite E.
  Qed.

  Theorem matrix_same c (h : header fl) n coef offset st :
    isMatrixOf h n coef offset -> (1 <= st)%nat -> (n <= st)%nat -> identityCoef coef n -> zeroOffset offset n ->
    exists F, actsPerPixel c (Node h BMatrix) st F /\ forall px, List.length px = st ->
      (Forall isSingle (firstn n px) -> Forall2 sameNumber px (F px)) /\
      (forall i j x, (i < n)%nat -> (j < n)%nat -> i <> j -> nth_error px j = Some x -> is_finite x = false ->
         exists y, nth_error (F px) i = Some y /\ is_nan y = true).
  Proof.
    intros H H1 Hn HI HO. destruct (identity_form c h n coef offset st H H1 Hn HI HO) as [row [HA HR]]. eexists. split; [exact HA|].
    intros px Hp. split.
    - intro HS. apply Forall2_nth_error_intro.
      + now rewrite indexed_length.
      + intros i x y Hx Hy. rewrite (indexed_nth _ px i x Hx) in Hy. injection Hy as <-.
        destruct (Nat.ltb_spec i n) as [Hi|Hi]; [|now left].
        assert (HS' : forall j, (j < n)%nat -> isSingle (nth j px (B754_zero false))).
        { intros j Hj. rewrite Forall_forall in HS. apply HS. apply nth_error_In with j. rewrite nth_error_firstn_lt by exact Hj. apply nth_error_nth'. lia. }
        destruct (HR px i Hp Hi) as [Q _]. destruct (Q HS') as [Fr Er]. rewrite (nth_error_nth px i _ Hx) in Er.
        specialize (HS' i Hi). rewrite (nth_error_nth px i _ Hx) in HS'. apply same_value; [apply HS'|exact Fr|now symmetry].
    - intros i j x Hi Hj Hij Hx Fx. exists (row px i). split.
      + rewrite (indexed_nth _ px i (nth i px n0)) by (apply nth_error_nth'; lia). assert (Nat.ltb i n = true) as -> by now apply Nat.ltb_lt. reflexivity.
      + apply (proj2 (HR px i Hp Hi) j Hj Hij). now rewrite (nth_error_nth px j _ Hx).
  Qed.
End Same.

(** * Lookups *)
Section Lookups.
  Variable L : libm.
  #[local] Instance NIl : Num fl := ieeeNum L.

  Lemma two_power j : IZR (Z.of_nat (2 ^ j)) = bpow radix2 (Z.of_nat j).
  Proof.
    rewrite <- IZR_Zpower by lia. f_equal. induction j as [|j IH]; [reflexivity|].
    rewrite Nat.pow_succ_r', Nat2Z.inj_mul, IH. rewrite (Nat2Z.inj_succ j), Z.pow_succ_r by lia. reflexivity.
  Qed.
  Lemma power_small j : (j <= 24)%nat -> (0 < Z.of_nat (2 ^ j) <= 2 ^ 24)%Z.
  Proof.
    intro H. split.
    - apply lt_IZR. rewrite two_power. apply bpow_gt_0.
    - apply le_IZR. rewrite two_power. change (IZR (2 ^ 24)) with (bpow radix2 24). apply bpow_le. lia.
  Qed.

  Lemma position_same d (x : fl) : fullScale d = 1 -> isSingle x -> 0 <= B2R x <= 1 ->
    let p := nf32 (bitDepthToNormalized x d) in is_finite p = true /\ B2R p = B2R x.
  Proof.
    intros Hd HS Hx p. pose proof (single_sg x HS) as Sx. destruct HS as (F & G & _).
    assert (1 <= bpow radix2 126) by (change 1 with (bpow radix2 0); apply bpow_le; lia).
    assert (E1 : B2R x / fullScale d = B2R x) by (rewrite Hd; field).
    destruct (normalized_stored L d x F) as [[Fp _] Ep]; [rewrite E1, Rabs_pos_eq; lra|]. split; [exact Fp|].
    unfold p. rewrite E1 in Ep. transitivity (rnd (p := 24) (e := 128) (rnd (p := 53) (e := 1024) (B2R x))); [exact Ep|].
    rewrite rnd_id. apply rnd_format. apply sg_format; [exact Sx|lia|lia].
  Qed.

  (** The position in the table is exact, and so are its cell and its fraction. *)
  Lemma cell_same j (p : fl) : (j <= 24)%nat -> is_finite p = true -> sg (B2R p) -> 0 <= B2R p <= 1 ->
    let y := nmul p (nofZ (Z.of_nat (2 ^ j + 1) - 1)) in
    let z := Zfloor (B2R y) in
    is_finite y = true /\ B2R y = B2R p * bpow radix2 (Z.of_nat j) /\ (0 <= z <= Z.of_nat (2 ^ j))%Z /\
    is_finite (nsub y (nofZ z)) = true /\ B2R (nsub y (nofZ z)) = B2R y - IZR z /\ sg (B2R y - IZR z) /\ 0 <= B2R y - IZR z < 1.
  Proof.
    intros Hj Fp Sp Bp. pose proof (power_small j Hj) as P. pose proof (two_power j) as W.
    assert (Em : (Z.of_nat (2 ^ j + 1) - 1 = Z.of_nat (2 ^ j))%Z) by (rewrite Nat2Z.inj_add; change (Z.of_nat 1) with 1%Z; apply Z.add_simpl_r).
    destruct (ofZ_exact L (Z.of_nat (2 ^ j))) as [Fm Vm]; [lia|]. cbv zeta. rewrite Em. set (y := nmul p (nofZ (Z.of_nat (2 ^ j)))). set (z := Zfloor (B2R y)).
    rewrite W in Vm. set (b := bpow radix2 (Z.of_nat j)) in *.
    assert (B1 : 1 <= b <= bpow radix2 24) by (unfold b; change 1 with (bpow radix2 0); split; apply bpow_le; lia).
    assert (Sy : sg (B2R p * b)) by (apply sg_scale; [exact Sp|lia]).
    assert (By : 0 <= B2R p * b <= b) by (split; [apply Rmult_le_pos; lra|nra]).
    assert (B24 : bpow radix2 24 < bpow radix2 128) by (apply bpow_lt; lia).
    destruct (mult_value L p (nofZ (Z.of_nat (2 ^ j))) (B2R p * b) Fp Fm) as [Fy Ey]; [now rewrite Vm|exact Sy|rewrite Rabs_pos_eq; lra|].
    change (is_finite y = true) in Fy. change (B2R y = B2R p * b) in Ey. split; [exact Fy|]. split; [exact Ey|].
    assert (Hz : (0 <= z <= Z.of_nat (2 ^ j))%Z).
    { unfold z. rewrite Ey. split; [apply Zfloor_lub; lra|]. apply le_IZR. rewrite W. fold b. eapply Rle_trans; [apply Zfloor_lb|lra]. }
    split; [exact Hz|]. destruct (ofZ_exact L z) as [Fz Vz]; [lia|].
    assert (Sf : sg (B2R y - IZR z)) by (unfold z; apply sg_frac; [now rewrite Ey|rewrite Ey; lra]).
    assert (Bf : 0 <= B2R y - IZR z < 1) by (unfold z; pose proof (Zfloor_lb (B2R y)); pose proof (Zfloor_ub (B2R y)); lra).
    assert (Rt : Rounds (nsub y (nofZ z)) (B2R y - IZR z)) by (rewrite <- Vz; apply minus_Rounds; assumption).
    assert (1 <= bpow radix2 1) by (change 1 with (bpow radix2 0); apply bpow_le; lia).
    destruct (Rounds_finite _ _ 1 Rt) as [Ft Et]; [rewrite Rabs_pos_eq; lra|lia|lia|].
    split; [exact Ft|]. split; [|split; [exact Sf|exact Bf]]. rewrite Et. apply rnd_format. apply sg_format; [exact Sf|lia|lia].
  Qed.

  Lemma entry_rel j k (e : fl) : (j <= 24)%nat -> (k <= 2 ^ j)%nat -> evenEntry j k e -> rel 24 0 e (INR k / bpow radix2 (Z.of_nat j)).
  Proof.
    intros Hj Hk [F E]. rewrite <- E. apply rel_exact; [exact F|]. rewrite E.
    assert (P := bpow_gt_0 radix2 (Z.of_nat j)). destruct k as [|k]; [left; cbn [INR]; unfold Rdiv; ring|right].
    assert (1 <= INR (S k)) by (change 1 with (INR 1); apply le_INR; lia).
    assert (INR (S k) <= bpow radix2 (Z.of_nat j)) by (rewrite <- two_power, <- INR_IZR_INZ; now apply le_INR).
    assert (1 <= bpow radix2 24) by (change 1 with (bpow radix2 0); apply bpow_le; lia).
    assert (I : bpow radix2 (- (24)) <= / bpow radix2 (Z.of_nat j)) by (rewrite <- bpow_opp; apply bpow_le; lia).
    assert (0 < / bpow radix2 (Z.of_nat j)) by (apply Rinv_0_lt_compat; exact P). unfold Rdiv. split.
    - rewrite <- (Rmult_1_l (bpow radix2 (- (24)))). apply Rmult_le_compat; try lra. apply bpow_ge_0.
    - apply Rle_trans with 1; [|lra]. apply Rmult_le_reg_r with (bpow radix2 (Z.of_nat j)); [exact P|]. rewrite Rmult_assoc, Rinv_l by lra. lra.
  Qed.

  (** Weights made from a fraction of 24 bits. *)
  Lemma weight_rel (f : fl) : is_finite f = true -> sg (B2R f) -> 0 <= B2R f < 1 -> rel 149 3 f (B2R f) /\ rel 149 3 (nsub n1 f) (1 - B2R f).
  Proof.
    intros Ff Sf Bf. assert (B149 : 1 <= bpow radix2 149) by (change 1 with (bpow radix2 0); apply bpow_le; lia). split.
    - apply (rel_weaken 149 149 0 3); [lia|lra|]. apply rel_exact; [exact Ff|].
      destruct (sg_minus (B2R f) 0 Sf sg_0 (proj1 Bf)) as [D|D]; rewrite Rminus_0_r in D; [now left|right]. change (- (149))%Z with (-149)%Z. lra.
    - destruct (ofZ_exact L 1) as [F1 E1]; [lia|]. change (nsub n1 f) with (nsub (nofZ 1) f). rewrite <- E1. apply rel_minus; try assumption; rewrite ?E1; try lra.
      exists 1%Z, 0%Z. split; [cbn; ring|]. split; lia.
  Qed.
  Lemma lerp_rel n k (f x y : fl) a b : is_finite f = true -> sg (B2R f) -> 0 <= B2R f < 1 -> rel n k x a -> rel n k y b -> (0 <= n)%Z -> (n + 150 <= 500)%Z -> 0 <= k <= 40 ->
    rel (n + 150) (k + 10) (lerp f x y) ((1 - B2R f) * a + B2R f * b).
  Proof.
    intros Ff Sf Bf Hx Hy Hn Hn' Hk. destruct (weight_rel f Ff Sf Bf) as [W1 W0].
    replace (n + 150)%Z with (149 + n + 1)%Z by lia. replace (k + 10) with ((3 + k + 4) + 3) by ring. unfold lerp.
    apply rel_plus; [|  |lia|lia|lra]; apply rel_mult; try assumption; lia || lra.
  Qed.

  Theorem lut1d_same c (h : header fl) dIn a j :
    isLinearLUT h dIn a (2 ^ j + 1) -> fullScale dIn = 1 -> (j <= 24)%nat ->
    (forall k ch, (k <= 2 ^ j)%nat -> (ch < 3)%nat -> evenEntry j k (entry1D a k ch)) ->
    exists f, actsPerChannel c (Node h BLUT1D) f /\
      forall ch x, (ch < 3)%nat -> isSingle x -> 0 <= B2R x <= 1 -> sameNumber x (f ch x).
  Proof.
    intros H Hd Hj HE. exists (linFun L a dIn). split; [now apply (linear_acts L c h dIn a (2 ^ j + 1))|].
    destruct H as [_ [_ [_ [_ [_ [_ [Hw Hnn]]]]]]]. intros ch x Hch HS Hx.
    destruct (position_same dIn x Hd HS Hx) as [Fp Ep]. pose proof (single_sg x HS) as Sx.
    destruct (cell_same j (nf32 (bitDepthToNormalized x dIn)) Hj Fp) as (Fy & Ey & Hz & Ft & Et & St & Bt); [now rewrite Ep|now rewrite Ep|].
    rewrite Ep in Ey. pose proof (power_small j Hj) as P.
    assert (Q : is_finite (linFun L a dIn ch x) = true /\ B2R (linFun L a dIn ch x) = B2R x).
    2:{ apply same_value; [apply HS|apply Q|symmetry; apply Q]. }
    change (linFun L a dIn ch x) with (nf32 (match lookup1DLinear a (nf32 (bitDepthToNormalized x dIn)) ch with Ok y => y | Err _ => n0 end)).
    unfold lookup1DLinear, dim. destruct (a_dims a) as [|n' rest] eqn:Ed; [discriminate Hnn|]. injection Hnn as ->. cbn [getn nth_error bind].
    cbv zeta. set (y := nmul (nf32 (bitDepthToNormalized x dIn)) (nofZ (Z.of_nat (2 ^ j + 1) - 1))) in *.
    assert (Ni : (nisnan y || nisinf y)%bool = false) by (destruct y; try discriminate; reflexivity).
    rewrite Ni. cbv zeta.
    assert (Elo : nfloor y = Zfloor (B2R y)) by (now apply flFloor_R).
    assert (Ehi : nceil y = Zceil (B2R y)) by (cbn [nceil ieeeNum NIl]; unfold Zceil; rewrite flFloor_R by (now rewrite is_finite_Bopp); now rewrite B2R_Bopp).
    rewrite Elo, Ehi. pose proof (Zfloor_lb (B2R y)) as F0. set (z := Zfloor (B2R y)) in *.
    set (b := bpow radix2 (Z.of_nat j)) in *. assert (Pb : 0 < b) by apply bpow_gt_0.
    assert (Hc : (z <= Zceil (B2R y) <= Z.of_nat (2 ^ j))%Z).
    { split; [apply le_IZR; eapply Rle_trans; [exact F0|apply Zceil_ub]|]. apply Zceil_glb. rewrite two_power, Ey. fold b. nra. }
    assert (HC : IZR (Zceil (B2R y)) - IZR z = 1 \/ (Zceil (B2R y) = z /\ B2R y - IZR z = 0)).
    { destruct (Req_dec (IZR z) (B2R y)) as [I|I].
      - right. split; [rewrite <- I; apply Zceil_IZR|lra].
      - left. rewrite Zceil_floor_neq by exact I. fold z. rewrite plus_IZR. ring. }
    set (hi := Zceil (B2R y)) in *.
    rewrite (lookup1D_entry a (2 ^ j + 1)) by (assumption || (now rewrite Ed) || (rewrite Nat2Z.inj_add; change (Z.of_nat 1) with 1%Z; lia)). cbn [bind].
    rewrite (lookup1D_entry a (2 ^ j + 1)) by (assumption || (now rewrite Ed) || (rewrite Nat2Z.inj_add; change (Z.of_nat 1) with 1%Z; lia)). cbn [bind].
    assert (R1 : rel 24 0 (entry1D a (Z.to_nat z) ch) (IZR z / b)).
    { replace (IZR z) with (INR (Z.to_nat z)) by (rewrite INR_IZR_INZ, Z2Nat.id by lia; reflexivity). apply entry_rel; [exact Hj|lia|apply HE; [lia|exact Hch]]. }
    assert (R2 : rel 24 0 (entry1D a (Z.to_nat hi) ch) (IZR hi / b)).
    { replace (IZR hi) with (INR (Z.to_nat hi)) by (rewrite INR_IZR_INZ, Z2Nat.id by lia; reflexivity). apply entry_rel; [exact Hj|lia|apply HE; [lia|exact Hch]]. }
    set (t := nsub y (nofZ z)) in *.
    assert (RL := lerp_rel 24 0 t _ _ _ _ Ft ltac:(now rewrite Et) ltac:(now rewrite Et) R1 R2 ltac:(lia) ltac:(lia) ltac:(lra)).
    assert (V : (1 - B2R t) * (IZR z / b) + B2R t * (IZR hi / b) = B2R x).
    { rewrite Et. assert (X : B2R x = B2R y / b) by (rewrite Ey; field; lra). rewrite X.
      destruct HC as [HC|[-> HC]]; [replace (IZR hi) with (IZR z + 1) by lra|replace (B2R y) with (IZR z) by lra]; field; lra. }
    rewrite V in RL. exact (rel_single L _ _ _ _ RL ltac:(lra) Sx (proj2 Hx)).
  Qed.

  (** ** Cubes *)
  Lemma axis_same (a : array fl) j d px k x : wellFormed3D a (2 ^ j + 1) -> (j <= 24)%nat -> (k < 3)%nat ->
    nth_error px k = Some (nf32 (bitDepthToNormalized x d)) -> fullScale d = 1 -> isSingle x -> 0 <= B2R x <= 1 ->
    exists z i, axis a px k = Ok (z, i) /\ (0 <= z <= Z.of_nat (2 ^ j))%Z /\ is_finite i = true /\ sg (B2R i) /\ 0 <= B2R i < 1 /\
      IZR z + B2R i = B2R x * bpow radix2 (Z.of_nat j).
  Proof.
    intros [[rest Hd] _] Hj Hk Hp Hs HS Hx. destruct (position_same d x Hs HS Hx) as [Fp Ep]. pose proof (single_sg x HS) as Sx.
    destruct (clamp_ieee L (nf32 (bitDepthToNormalized x d)) Fp) as [Fc Ec].
    assert (Ec' : B2R (clamp (nf32 (bitDepthToNormalized x d))) = B2R x).
    { transitivity (clampR (B2R (nf32 (bitDepthToNormalized x d)))); [exact Ec|]. rewrite Ep. unfold clampR, Rmin, Rmax. repeat destruct (Rle_dec _ _); lra. }
    unfold axis. apply getn_some in Hp. rewrite Hp. cbn [bind].
    assert (Ed : dim a k = Ok (2 ^ j + 1)%nat) by (unfold dim; rewrite Hd; destruct k as [|[|[|k]]]; try lia; reflexivity).
    rewrite Ed. cbn [bind]. cbv zeta. set (q := clamp (nf32 (bitDepthToNormalized x d))) in *.
    change (is_finite q = true) in Fc. change (B2R q = B2R x) in Ec'.
    destruct (cell_same j q Hj Fc) as (Fy & Ey & Hz & Ft & Et & St & Bt); [rewrite Ec'; exact Sx|rewrite Ec'; exact Hx|].
    rewrite Ec' in Ey. set (y := nmul q (nofZ (Z.of_nat (2 ^ j + 1) - 1))) in *.
    assert (En : ntrunc y = Zfloor (B2R y)).
    { unfold ntrunc. assert (X : nltb y n0 = false).
      { destruct (ofZ_exact L 0) as [F0 E0]; [lia|]. change (Bltb y (@nofZ fl (ieeeNum L) 0) = false). rewrite Bltb_correct by assumption. rewrite E0. apply Rlt_bool_false.
        rewrite Ey. pose proof (bpow_gt_0 radix2 (Z.of_nat j)). nra. }
      rewrite X. now apply flFloor_R. }
    rewrite En. eexists _, _. split; [reflexivity|]. split; [exact Hz|]. split; [exact Ft|]. rewrite Et. split; [exact St|]. split; [exact Bt|]. rewrite Ey. ring.
  Qed.

  Lemma blend_rel (w0 w1 w2 w3 x0 x1 x2 x3 : fl) g0 g1 g2 g3 a0 a1 a2 a3 :
    rel 149 3 w0 g0 -> rel 149 3 w1 g1 -> rel 149 3 w2 g2 -> rel 149 3 w3 g3 -> rel 24 0 x0 a0 -> rel 24 0 x1 a1 -> rel 24 0 x2 a2 -> rel 24 0 x3 a3 ->
    rel 176 16 (blend w0 x0 w1 x1 w2 x2 w3 x3) (g0 * a0 + g1 * a1 + g2 * a2 + g3 * a3).
  Proof.
    intros W0 W1 W2 W3 X0 X1 X2 X3.
    assert (M : forall w x g v, rel 149 3 w g -> rel 24 0 x v -> rel 173 7 (nmul w x) (g * v)).
    { intros w x g v Hw Hx. replace 7 with (3 + 0 + 4) by ring. apply (rel_mult L 149 24); try assumption; lia || lra. }
    unfold blend. replace 16 with (13 + 3) by ring. apply (rel_plus L 175); [|apply (rel_weaken 173 175 7 13); [lia|lra|now apply M]|lia|lia|lra].
    replace 13 with (10 + 3) by ring. apply (rel_plus L 174); [|apply (rel_weaken 173 174 7 10); [lia|lra|now apply M]|lia|lia|lra].
    replace 10 with (7 + 3) by ring. apply (rel_plus L 173); [now apply M|now apply M|lia|lia|lra].
  Qed.

  Lemma interp_rel tet (e : Z -> Z -> Z -> fl) (E : Z -> Z -> Z -> R) r g b (fx fy fz : fl) :
    (forall i j k, rel 24 0 (e i j k) (E i j k)) ->
    is_finite fx = true -> is_finite fy = true -> is_finite fz = true -> sg (B2R fx) -> sg (B2R fy) -> sg (B2R fz) ->
    0 <= B2R fx < 1 -> 0 <= B2R fy < 1 -> 0 <= B2R fz < 1 ->
    rel 474 30 (interpT tet e r g b fx fy fz) (interpV tet E r g b (B2R fx) (B2R fy) (B2R fz)).
  Proof.
    intros He Fx Fy Fz Sx Sy Sz Bx By Bz. destruct tet; unfold interpT, interpV.
    - unfold tetT, tetV. cbv zeta.
      assert (LT : forall x y : fl, is_finite x = true -> is_finite y = true -> nltb x y = Rltb (B2R x) (B2R y)).
      { intros x y Hx Hy. change (nltb x y) with (Bltb x y). rewrite Bltb_correct by assumption. unfold Rlt_bool, Rltb.
        destruct (Rcompare_spec (B2R x) (B2R y)); destruct (Rlt_dec (B2R x) (B2R y)); try reflexivity; lra. }
      rewrite !LT by assumption.
      orders; apply (rel_weaken 176 474 16 30); try lia; try lra; apply blend_rel; try apply He; try (apply weight_rel; assumption); apply (rel_minus L); try assumption; lra.
    - unfold triT, triV.
      replace 30 with (20 + 10) by ring. apply (lerp_rel 324); try assumption; try lia; try lra; replace 20 with (10 + 10) by ring;
        apply (lerp_rel 174); try assumption; try lia; try lra; replace 10 with (0 + 10) by ring; apply (lerp_rel 24); try assumption; try lia; try lra; apply He.
  Qed.

  Lemma along tet (V : Z -> R) r g b x y z :
    interpV tet (fun i _ _ => V i) r g b x y z = (1 - x) * V r + x * V (r + 1)%Z /\
    interpV tet (fun _ j _ => V j) r g b x y z = (1 - y) * V g + y * V (g + 1)%Z /\
    interpV tet (fun _ _ k => V k) r g b x y z = (1 - z) * V b + z * V (b + 1)%Z.
  Proof. destruct tet; unfold interpV, tetV, triV; cbv zeta; [orders|]; repeat split; ring. Qed.

  Theorem lut3d_same c (h : header fl) tet dIn a j :
    isCube h (kindOf tet) dIn a (2 ^ j + 1) -> fullScale dIn = 1 -> (j <= 24)%nat ->
    (forall x y z ch, (x <= 2 ^ j)%nat -> (y <= 2 ^ j)%nat -> (z <= 2 ^ j)%nat -> (ch < 3)%nat -> evenEntry j (component ch (x, y, z)) (entry3D a (2 ^ j + 1) x y z ch)) ->
    exists F, actsPerColour c (Node h BLUT3D) F /\
      forall ch r g b, (ch < 3)%nat -> isSingle r -> isSingle g -> isSingle b -> 0 <= B2R r <= 1 -> 0 <= B2R g <= 1 -> 0 <= B2R b <= 1 ->
        sameNumber (component ch (r, g, b)) (component ch (F r g b)).
  Proof.
    intros H Hs Hj HE. exists (cubeFun L tet a dIn). split; [now apply (cube_acts L c h dIn a (2 ^ j + 1))|].
    destruct H as (_ & _ & _ & _ & Hw & _). intros ch r g b Hch Sr Sg Sb Br Bg Bb.
    set (p := fun x => nf32 (bitDepthToNormalized x dIn)).
    destruct (axis_same a j dIn [p r; p g; p b] 0 r Hw Hj ltac:(lia) eq_refl Hs Sr Br) as (zr & fr & Ar & Zr & Ffr & Sfr & Bfr & Er).
    destruct (axis_same a j dIn [p r; p g; p b] 1 g Hw Hj ltac:(lia) eq_refl Hs Sg Bg) as (zg & fg & Ag & Zg & Ffg & Sfg & Bfg & Eg).
    destruct (axis_same a j dIn [p r; p g; p b] 2 b Hw Hj ltac:(lia) eq_refl Hs Sb Bb) as (zb & fb & Ab & Zb & Ffb & Sfb & Bfb & Eb).
    set (n := (2 ^ j + 1)%nat) in *.
    assert (Hn : Z.of_nat n = (Z.of_nat (2 ^ j) + 1)%Z) by (unfold n; rewrite Nat2Z.inj_add; reflexivity).
    assert (K : look tet a [p r; p g; p b] = Ok [interpT tet (gridT a n 0) zr zg zb fr fg fb; interpT tet (gridT a n 1) zr zg zb fr fg fb; interpT tet (gridT a n 2) zr zg zb fr fg fb])
      by exact (look_T tet a n _ _ _ _ _ _ _ Hw Ar Ag Ab).
    assert (EF : component ch (cubeFun L tet a dIn r g b) = nf32 (interpT tet (gridT a n ch) zr zg zb fr fg fb)).
    { change (cubeFun L tet a dIn r g b) with (match look tet a [p r; p g; p b] with Ok [x; y; z] => (nf32 x, nf32 y, nf32 z) | _ => (n0, n0, n0) end). rewrite K. destruct ch as [|[|[|ch]]]; try lia; reflexivity. }
    rewrite EF. clear EF K Ar Ag Ab. pose proof (power_small j Hj) as P.
    set (w := bpow radix2 (Z.of_nat j)) in *. assert (Pw : 0 < w) by apply bpow_gt_0.
    set (V := fun z => INR (clampZ n z) / w).
    assert (Hcl : forall z, (clampZ n z <= 2 ^ j)%nat).
    { intro z. assert (clampZ n z < n)%nat by (apply clampZ_lt; unfold n; lia). unfold n in *. lia. }
    assert (Hrel : forall x y z, rel 24 0 (gridT a n ch x y z) (component ch (V x, V y, V z))).
    { intros x y z. unfold gridT. pose proof (HE (clampZ n x) (clampZ n y) (clampZ n z) ch (Hcl x) (Hcl y) (Hcl z) Hch) as Q.
      destruct ch as [|[|[|ch]]]; try lia; cbn [component] in *; unfold V; apply entry_rel; try assumption; apply Hcl. }
    assert (HV : forall z f x, (0 <= z <= Z.of_nat (2 ^ j))%Z -> 0 <= f < 1 -> IZR z + f = x * w -> x <= 1 -> (1 - f) * V z + f * V (z + 1)%Z = x).
    { intros z f x Hz Hf Hx H1. unfold V. assert (In : forall y, (0 <= y < Z.of_nat n)%Z -> INR (clampZ n y) = IZR y).
      { intros y Hy. rewrite <- (Z2Nat.id y) at 1 by lia. rewrite clampZ_in by lia. rewrite INR_IZR_INZ, Z2Nat.id by lia. reflexivity. }
      assert (X : x = (IZR z + f) / w) by (rewrite Hx; field; lra).
      destruct (Z.eq_dec z (Z.of_nat (2 ^ j))) as [->|Nz].
      - assert (f = 0) as -> by (rewrite two_power in Hx; fold w in Hx; nra). rewrite In by lia. rewrite X. field. lra.
      - rewrite !In by lia. rewrite plus_IZR, X. field. lra. }
    assert (RI := interp_rel tet (gridT a n ch) (fun x y z => component ch (V x, V y, V z)) zr zg zb fr fg fb Hrel Ffr Ffg Ffb Sfr Sfg Sfb Bfr Bfg Bfb).
    destruct (along tet V zr zg zb (B2R fr) (B2R fg) (B2R fb)) as (A1 & A2 & A3).
    assert (Q : is_finite (nf32 (interpT tet (gridT a n ch) zr zg zb fr fg fb)) = true /\ B2R (nf32 (interpT tet (gridT a n ch) zr zg zb fr fg fb)) = B2R (component ch (r, g, b))).
    { destruct ch as [|[|[|ch]]]; try lia; cbn [component] in *; (apply (rel_single L 474 30); [|lra|apply single_sg; assumption|lra]); [
        rewrite <- (HV zr (B2R fr) (B2R r)) by (assumption || lra); rewrite <- A1; exact RI|
        rewrite <- (HV zg (B2R fg) (B2R g)) by (assumption || lra); rewrite <- A2; exact RI|
        rewrite <- (HV zb (B2R fb) (B2R b)) by (assumption || lra); rewrite <- A3; exact RI]. }
    apply same_value; [destruct ch as [|[|[|ch]]]; try lia; [apply Sr|apply Sg|apply Sb]|apply Q|symmetry; apply Q].
  Qed.
End Lookups.
