(** Proofs about the list written to a .clf file by a conversion. *)
From Coq Require Import Lra.
From Verif Require Export PShaper PLut3DStride.
Local Open Scope R_scope.

(** The flattened lattice, red slowest. *)
Lemma flatten_entries n m k (s : lattice R) :
  hasShape n m k s -> (forall r g b, (r < n)%nat -> (g < m)%nat -> (b < k)%nat -> List.length (cellOf s r g b) = 3%nat) ->
  exists v, flattenLattice n m k s = Ok v /\ List.length v = (n * m * k * 3)%nat /\
    forall r g b ch, (r < n)%nat -> (g < m)%nat -> (b < k)%nat -> (ch < 3)%nat ->
      nth (((r * m + g) * k + b) * 3 + ch) v 0 = nth ch (cellOf s r g b) 0.
Proof.
  intros [L Hs] H3.
  assert (Ecell : forall r g b, (r < n)%nat -> (g < m)%nat -> (b < k)%nat -> latticeGet s r g b = Ok (cellOf s r g b)).
  { intros r g b Hr Hg Hb. destruct (Hs r Hr) as [L1 Hs1]. pose proof (Hs1 g Hg) as L2. unfold latticeGet, cellOf.
    rewrite (proj2 (getn_some s r (nth r s []))) by (apply nth_error_nth'; lia). cbn [bind].
    rewrite (proj2 (getn_some (nth r s []) g (nth g (nth r s []) []))) by (apply nth_error_nth'; lia). cbn [bind].
    apply getn_some. apply nth_error_nth'. lia. }
  assert (E3 : forall r g b, (r < n)%nat -> (g < m)%nat -> (b < k)%nat ->
     mapM (fun j => let* v := latticeGet s r g b in getn v j) (seq 0 3) = Ok (cellOf s r g b)).
  { intros r g b Hr Hg Hb. apply (mapM_iff _ 3 _ 0). split; [now apply H3|]. intros j Hj. rewrite Ecell by assumption. cbn [bind].
    apply getn_some. apply nth_error_nth'. rewrite H3 by assumption. exact Hj. }
  assert (E : mapM (fun r => mapM (fun g => mapM (fun b => mapM (fun j => let* v := latticeGet s r g b in getn v j) (seq 0 3)) (seq 0 k)) (seq 0 m)) (seq 0 n) = Ok s).
  { apply (mapM_iff _ n _ []). split; [exact L|]. intros r Hr. destruct (Hs r Hr) as [L1 Hs1].
    apply (mapM_iff _ m _ []). split; [exact L1|]. intros g Hg.
    apply (mapM_iff _ k _ []). split; [now apply Hs1|]. intros b Hb. now apply E3. }
  unfold flattenLattice. rewrite E. cbn [bind]. eexists. split; [reflexivity|].
  assert (F1 : Forall (fun p => List.length p = m) s).
  { apply Forall_forall. intros p Hp. destruct (In_nth _ _ [] Hp) as [r [Hr <-]]. apply Hs. lia. }
  assert (F2 : Forall (fun q => List.length q = k) (List.concat s)).
  { apply Forall_forall. intros q Hq. apply in_concat in Hq. destruct Hq as [p [Hp Hq]].
    destruct (In_nth _ _ [] Hp) as [r [Hr <-]]. destruct (In_nth _ _ [] Hq) as [g [Hg <-]].
    destruct (Hs r ltac:(lia)) as [L1 Hs1]. apply Hs1. lia. }
  assert (F3 : Forall (fun v => List.length v = 3%nat) (List.concat (List.concat s))).
  { apply Forall_forall. intros v Hv. apply in_concat in Hv. destruct Hv as [q [Hq Hv]]. apply in_concat in Hq. destruct Hq as [p [Hp Hq]].
    destruct (In_nth _ _ [] Hp) as [r [Hr <-]]. destruct (In_nth _ _ [] Hq) as [g [Hg <-]]. destruct (In_nth _ _ [] Hv) as [b [Hb <-]].
    destruct (Hs r ltac:(lia)) as [L1 Hs1]. apply H3; [lia|lia|]. rewrite <- (Hs1 g) by lia. exact Hb. }
  pose proof (concat_rows_length m s F1) as C1. pose proof (concat_rows_length k _ F2) as C2. pose proof (concat_rows_length 3 _ F3) as C3.
  split; [rewrite C3, C2, C1, L; reflexivity|].
  intros r g b ch Hr Hg Hb Hc. assert ((r * m + g < n * m)%nat) by nia. assert (((r * m + g) * k + b < n * m * k)%nat) by nia.
  rewrite (concat_rows_nth 3) by (assumption || rewrite C2, C1, L; assumption).
  f_equal. rewrite (concat_rows_nth k) by (assumption || rewrite C1, L; assumption).
  unfold cellOf. f_equal. rewrite (concat_rows_nth m) by (assumption || lia). reflexivity.
Qed.

(** The table of a linear shaper. *)
Lemma linear_table c n a b t : (2 <= n)%nat -> a < b -> List.length t = (n * 3)%nat ->
  (forall i, (i < n)%nat -> colourThrough c (bareList [limitRange "" "" a b 0 1]) (repeat (gridPoint n a b i) 3) = Ok (firstn 3 (skipn (i * 3) t))) ->
  forall k ch, (k < n)%nat -> (ch < 3)%nat -> nth (k * 3 + ch) t 0 = INR k / INR (n - 1).
Proof.
  intros Hn Hab L H k ch Hk Hc. assert (Hp : 0 < INR (n - 1)) by (apply lt_0_INR; lia).
  destruct (limitRange_maps c "" "" a b 0 1 Hab ltac:(lra)) as [r [A [B _]]].
  assert (M : mapsRGB c (bareList [limitRange "" "" a b 0 1]) (fun _ => r)).
  { apply list_maps. apply (chain_cons c _ _ (fun _ => r) (fun _ x => x)); [reflexivity|now apply sample_maps|apply chain_nil]. }
  specialize (H k Hk). rewrite (maps_colour _ _ _ _ M) in H by apply repeat_length. rewrite grey_map in H. apply Ok_inj in H.
  assert (Hi : INR k <= INR (n - 1)) by (apply le_INR; lia). pose proof (pos_INR k).
  assert (Hg : a <= gridPoint n a b k <= b).
  { unfold gridPoint. assert (0 < / INR (n - 1)) by now apply Rinv_0_lt_compat.
    assert (0 <= INR k / INR (n - 1) <= 1).
    { unfold Rdiv. split; [apply Rmult_le_pos; lra|]. apply Rmult_le_reg_r with (INR (n - 1)); [lra|]. rewrite Rmult_assoc, Rinv_l by lra. lra. }
    nra. }
  rewrite B in H by assumption.
  replace (through a 0 b 1 (gridPoint n a b k)) with (INR k / INR (n - 1)) in H by (unfold through, gridPoint; field; lra).
  rewrite <- (firstn_skipn (k * 3) t) at 1. rewrite app_nth2 by (rewrite firstn_length; lia).
  rewrite firstn_length, Nat.min_l by lia. replace (k * 3 + ch - k * 3)%nat with ch by lia.
  rewrite <- (firstn_skipn 3 (skipn (k * 3) t)), <- H. rewrite app_nth1 by (cbn; lia).
  destruct ch as [|[|[|ch]]]; try lia; reflexivity.
Qed.

Lemma linear_rising n t : (2 <= n)%nat -> List.length t = (n * 3)%nat ->
  (forall k ch, (k < n)%nat -> (ch < 3)%nat -> nth (k * 3 + ch) t 0 = INR k / INR (n - 1)) -> risingTable n 3 t.
Proof.
  intros Hn L H. split; [exact Hn|]. split; [auto|]. split; [exact L|]. intros ch k Hc Hk. unfold column.
  replace (Nat.min ch (3 - 1)) with ch by lia. rewrite !H by lia. rewrite plus_INR. cbn [INR].
  assert (0 < INR (n - 1)) by (apply lt_0_INR; lia). unfold Rdiv. apply Rmult_lt_compat_r; [now apply Rinv_0_lt_compat|lra].
Qed.

(** The nodes exported for a linear shaper compute its inverse. *)
Lemma linear_exported c n a b t useHalf : (2 <= n)%nat -> a < b -> List.length t = (n * 3)%nat ->
  (forall k ch, (k < n)%nat -> (ch < 3)%nat -> nth (k * 3 + ch) t 0 = INR k / INR (n - 1)) ->
  exists first G, exportInverse true useHalf n t a b = Ok first /\ chainMaps c first G /\
    Forall (fun m => notBypassed m = true) first /\
    forall ch x, (ch < 3)%nat -> 0 <= x <= 1 -> G ch x = a + x * (b - a).
Proof.
  intros Hn Hab L H. pose proof (linear_rising n t Hn L H) as HT. assert (Hp : 0 < INR (n - 1)) by (apply lt_0_INR; lia).
  destruct (inverse_positions n 3 t HT c) as [P [HP HPs]].
  destruct (limitRange_maps c "inverse_1d_range_1" "inverse_1d_range_1" 0 1 a b ltac:(lra) ltac:(lra)) as [r2 [Hr2 [Hr2s _]]].
  set (keep := negb (Reqb a 0) || negb (Reqb b 1)).
  assert (Hkeep : keep = false -> a = 0 /\ b = 1).
  { unfold keep. intro E. apply orb_false_iff in E. destruct E as [E1 E2]. apply negb_false_iff in E1, E2.
    apply Reqb_spec in E1, E2. auto. }
  exists (inverseNode n 3 t :: if keep then [limitRange "inverse_1d_range_1" "inverse_1d_range_1" 0 1 a b] else []),
    (fun ch y => let p := P ch y in if keep then r2 p else p).
  split; [cbn [exportInverse]; apply (inverse_built n 3 t HT)|]. split; [|split].
  - destruct keep.
    + apply (chain_cons c _ _ P (fun _ => r2)); [apply inverse_on|now apply channel_maps|].
      apply (chain_cons c _ _ (fun _ => r2) (fun _ x => x)); [reflexivity|now apply sample_maps|apply chain_nil].
    + apply (chain_cons c _ _ P (fun _ x => x)); [apply inverse_on|now apply channel_maps|apply chain_nil].
  - constructor; [apply inverse_on|]. destruct keep; repeat constructor.
  - intros ch x Hc Hx. cbv beta zeta.
    assert (EP : P ch x = x).
    { destruct (HPs ch Hc) as [H1 _]. assert (Ht : 0 <= x * INR (n - 1) <= INR (n - 1)) by nra.
      destruct (find_cell n _ Hn Ht) as [k [Hk Hcell]]. rewrite plus_INR in Hcell. cbn [INR] in Hcell.
      assert (Ec : forall j, (j < n)%nat -> column 3 t ch j = INR j / INR (n - 1)).
      { intros j Hj. unfold column. replace (Nat.min ch (3 - 1)) with ch by lia. now apply H. }
      rewrite (H1 k x Hk).
      - rewrite !Ec by lia. rewrite plus_INR. cbn [INR]. field. lra.
      - rewrite !Ec by lia. rewrite plus_INR. cbn [INR]. unfold Rdiv. split;
          apply Rmult_le_reg_r with (INR (n - 1)); try lra; rewrite Rmult_assoc, Rinv_l by lra; lra. }
    rewrite EP. destruct keep eqn:K; [rewrite Hr2s by assumption; unfold through; field|].
    destruct (Hkeep eq_refl) as [-> ->]. lra.
Qed.

Theorem export_linear c l n1d n n2 inType pa pb a b po pq s useHalf :
  (2 <= n1d)%nat -> (2 <= n)%nat -> (2 <= n2)%nat ->
  (inType = Some "linear"%string /\ a = pa /\ b = pb /\ a < b) \/ (inType = None /\ a = 0 /\ b = 1) ->
  sample1D3D1D c l n1d n n n n2 inType pa pb None po pq = Ok s ->
  exists out, exportCLF true useHalf (s_in s) n1d (s_inMin s) (s_inMax s) (s_3d s) n n n (s_out s) = Ok out /\
    forall r g k x0 x1 x2, (r < n)%nat -> (g < n)%nat -> (k < n)%nat -> 0 <= x0 <= 1 -> 0 <= x1 <= 1 -> 0 <= x2 <= 1 ->
      a + x0 * (b - a) = gridPoint n 0 1 r -> a + x1 * (b - a) = gridPoint n 0 1 g -> a + x2 * (b - a) = gridPoint n 0 1 k ->
      colourThrough c out [x0; x1; x2] = colourThrough c l [gridPoint n a b r; gridPoint n a b g; gridPoint n a b k].
Proof.
  intros H1 Hn H2 Hin H.
  assert (ES : exists F I, createShaper inType pa pb = Ok (F, I, a, b) /\
     (inType <> None -> F = bareList [limitRange "" "" a b 0 1] /\ I = bareList [limitRange "" "" 0 1 a b])).
  { destruct Hin as [[-> [-> [-> _]]]|[-> [-> ->]]]; eexists _, _; (split; [reflexivity|]); intro Hc; [auto|congruence]. }
  destruct ES as [F [I [ES EFI]]].
  assert (Hab : a < b) by (destruct Hin as [[_ [_ [_ Hl]]]|[_ [-> ->]]]; [exact Hl|lra]).
  assert (EO : createShaper None po pq = Ok (bareList [], bareList [], 0, 1)) by reflexivity.
  destruct (pipeline_contents c l n1d n n n2 inType pa pb None po pq _ _ _ _ _ _ _ _ s H1 Hn Hn H2 ES EO H)
    as [E1 [E2 [_ [_ [In0 [In1 [[Hs H3] [Out0 _]]]]]]]].
  rewrite (Out0 eq_refl), E1, E2.
  assert (HI : forall r g k, (r < n)%nat -> (g < n)%nat -> (k < n)%nat ->
     colourThrough c l [gridPoint n a b r; gridPoint n a b g; gridPoint n a b k] = Ok (cellOf (s_3d s) r g k)).
  { intros r g k Hr Hg Hk. destruct (H3 r g k Hr Hg Hk) as [u [p [Eu [Ep Ec]]]]. cbn [given] in Ec. rewrite Ec, <- Ep. f_equal.
    destruct Hin as [[Ein _]|[Ein [-> ->]]]; rewrite Ein in Eu; cbn [given] in Eu; [|congruence].
    destruct EFI as [_ ->]; [congruence|].
    destruct (limitRange_maps c "" "" 0 1 a b ltac:(lra) ltac:(lra)) as [r2 [A [B _]]].
    assert (M : mapsRGB c (bareList [limitRange "" "" 0 1 a b]) (fun _ => r2)).
    { apply list_maps. apply (chain_cons c _ _ (fun _ => r2) (fun _ x => x)); [reflexivity|now apply sample_maps|apply chain_nil]. }
    rewrite (maps_colour _ _ _ _ M) in Eu by reflexivity. apply Ok_inj in Eu. rewrite <- Eu.
    assert (Hp : 0 < INR (n - 1)) by (apply lt_0_INR; lia).
    assert (Hg01 : forall i, (i < n)%nat -> 0 <= gridPoint n 0 1 i <= 1).
    { intros i Hi. unfold gridPoint. assert (INR i <= INR (n - 1)) by (apply le_INR; lia). pose proof (pos_INR i).
      assert (0 < / INR (n - 1)) by now apply Rinv_0_lt_compat. unfold Rdiv.
      assert (0 <= INR i * / INR (n - 1)) by (apply Rmult_le_pos; lra).
      assert (INR i * / INR (n - 1) <= 1) by (apply Rmult_le_reg_r with (INR (n - 1)); [lra|]; rewrite Rmult_assoc, Rinv_l by lra; lra). lra. }
    rewrite rgb_map. cbn [map]. rewrite !B by auto.
    assert (Eg : forall i, gridPoint n a b i = through 0 a 1 b (gridPoint n 0 1 i)) by (intro i; unfold through, gridPoint; field; lra).
    now rewrite !Eg. }
  assert (H3len : forall r g k, (r < n)%nat -> (g < n)%nat -> (k < n)%nat -> List.length (cellOf (s_3d s) r g k) = 3%nat).
  { intros r g k Hr Hg Hk. pose proof (HI r g k Hr Hg Hk) as E. apply runList_length in E. exact E. }
  destruct (flatten_entries n n n (s_3d s) Hs H3len) as [vals [Ef [Lv Hv]]].
  assert (EX : exists first G, match nonempty (s_in s) with Some t => exportInverse true useHalf n1d t a b | None => Ok [] end = Ok first /\
     chainMaps c first G /\ Forall (fun m => notBypassed m = true) first /\
     forall ch x, (ch < 3)%nat -> 0 <= x <= 1 -> G ch x = a + x * (b - a)).
  { destruct Hin as [[Ein _]|[Ein [Ea Eb]]].
    - destruct In1 as [t [-> [Lt Ht]]]; [congruence|]. destruct EFI as [EF _]; [congruence|]. rewrite EF in Ht.
      assert (En : nonempty (Some t) = Some t) by (destruct t; [cbn in Lt; lia|reflexivity]). rewrite En.
      apply (linear_exported c n1d a b t useHalf H1 Hab Lt). now apply (linear_table c n1d a b t).
    - rewrite (In0 Ein). exists [], (fun _ x => x). split; [reflexivity|]. split; [apply chain_nil|]. split; [constructor|].
      intros ch x _ _. rewrite Ea, Eb. lra. }
  destruct EX as [first [G [Efirst [MG [BG HG]]]]].
  unfold exportCLF. rewrite Efirst, Ef. cbn [bind nonempty]. eexists. split; [reflexivity|].
  intros r g k x0 x1 x2 Hr Hg Hk Hx0 Hx1 Hx2 X0 X1 X2.
  set (nd := setArray3D _ _ _ _). set (arr := mkArray ([n; n; n] ++ [3%nat]) vals false false "string").
  assert (Hw : wellFormed3D arr n).
  { split; [eexists; reflexivity|]. split; [lia|]. cbn [arr a_vals mkArray]. rewrite Lv. ring. }
  assert (Hl : isLUT3D (nheader nd) (kindOf false) (AStr "16f") arr n).
  { split; [reflexivity|]. split; [eexists; reflexivity|]. split; [reflexivity|]. split; [reflexivity|exact Hw]. }
  destruct (lut3d_entries c (nheader nd) _ arr n false Hl eq_refl Hn) as [F3 [HF HE]].
  unfold colourThrough at 1. rewrite runList_outcome by reflexivity. rewrite list_outcome. cbn [procs_of].
  change (map nf32 [x0; x1; x2]) with [x0; x1; x2]. rewrite chainOut_app.
  2: { right. destruct (rev first) as [|q w] eqn:E; [exact Logic.I|]. unfold skips.
       assert (Hq : In q first) by (apply in_rev; rewrite E; now left). rewrite Forall_forall in BG. now rewrite (BG q Hq). }
  rewrite MG by reflexivity. cbn [bind app]. rewrite chainOut_cons. unfold skips. change (notBypassed nd) with true. cbn [orb negb].
  assert (EG : rgb G [x0; x1; x2] = [gridPoint n 0 1 r; gridPoint n 0 1 g; gridPoint n 0 1 k]).
  { unfold rgb, indexed. cbn. rewrite !HG by (lia || assumption). now rewrite X0, X1, X2. }
  rewrite EG.
  pose proof (HF 3%nat [gridPoint n 0 1 r; gridPoint n 0 1 g; gridPoint n 0 1 k] ltac:(lia)) as O.
  destruct (outcome_ok _ _ O) as [o [Eo El]]. change (Node (nheader nd) BLUT3D) with nd in Eo. rewrite Eo. cbn [bind chainOut].
  rewrite El, HI by assumption. f_equal.
  assert (Ec : forall i, gridPoint n 0 1 i = codeAt (AStr "16f") n i) by (intro i; unfold gridPoint, codeAt; cbn [fullScale]; lra).
  rewrite !Ec. unfold perColour, indexed. cbn.
  pose proof (H3len r g k Hr Hg Hk) as L3. pose proof (fun ch => Hv r g k ch Hr Hg Hk) as Hv'.
  assert (En : forall ch, (ch < 3)%nat -> entry3D arr n r g k ch = nth ch (cellOf (s_3d s) r g k) 0).
  { intros ch Hc. unfold entry3D. cbn [arr a_vals mkArray]. rewrite <- Hv' by assumption. reflexivity. }
  pose proof (HE r g k Hr Hg Hk) as Er. unfold colour3D in Er. rewrite !En in Er by lia. rewrite Er. destruct (cellOf (s_3d s) r g k) as [|p0 [|p1 [|p2 [|]]]]; try discriminate L3. reflexivity.
Qed.

(** Between its sample points the resampled inverse is only approximate. *)
Definition kneeTable : list R := [0; 1; 9].
Lemma knee_rising : risingTable 3 1 kneeTable.
Proof.
  split; [lia|]. split; [auto|]. split; [reflexivity|]. intros ch k Hc Hk. unfold column, kneeTable.
  replace (Nat.min ch (1 - 1)) with 0%nat by lia. destruct k as [|[|k]]; cbn; lra || lia.
Qed.

Theorem resampled_between :
  exists n channels samples ps inv y g,
    risingTable n channels samples /\ forwardLUT channels samples 0 1 ps /\
    generateLUT1DInverseResampled n channels samples 0 1 = Ok inv /\
    mapsRGB 0 (bareList (inv ++ ps)) g /\
    column channels samples 0 0 <= y <= column channels samples 0 (n - 1) /\ g 0%nat y < y - 1 / 3.
Proof.
  pose proof knee_rising as HT. destruct (forward_exists 3 1 kneeTable HT 0 1) as [ps Hps].
  destruct (resampled_built 3 1 kneeTable HT 0 1) as [lo [hi [h [arr [E [Hlh [Hb [Hlo [Hhi [Hl [Hm [Hon He]]]]]]]]]]]].
  pose proof Hps as Hps0. destruct (forward_node 3 1 kneeTable HT ps 0 1 Hps) as [h2 [a2 [Eps [Hl2 [Hm2 [Hb2 He2]]]]]].
  destruct (forward_lut 3 1 kneeTable HT 0 h2 a2 Hl2 Hm2 He2) as [F [HF HFs]].
  destruct (limitRange_maps 0 "r" "r" 0 1 0 1 ltac:(lra) ltac:(lra)) as [r1 [Hr1 [Hr1s _]]].
  destruct (limitRange_maps 0 "inverse_1d_range_1" "inverse_1d_range_1" lo hi 0 1 Hlh ltac:(lra)) as [r2 [Hr2 [Hr2s _]]].
  destruct (limitRange_maps 0 "inverse_1d_range_2" "inverse_1d_range_2" 0 1 0 1 ltac:(lra) ltac:(lra)) as [r3 [Hr3 [Hr3s _]]].
  destruct (lut1d_entries 0 h _ arr (2 * 3) Hl Hm ltac:(lia)) as [P [HP HPs]].
  assert (C : forall ch k, column 1 kneeTable ch k = nth k kneeTable 0).
  { intros ch k. unfold column. f_equal. lia. }
  eexists 3%nat, 1%nat, kneeTable, ps, _, 1, (fun ch y => F ch (r1 (r3 (P ch (r2 y))))).
  split; [exact HT|]. split; [exact Hps0|]. split; [exact E|]. split; [|split; [rewrite !C; cbn; lra|]].
  - apply list_maps. rewrite Eps. cbn [procs_of bareList app].
    apply (chain_cons 0 _ _ (fun _ => r2) (fun ch x => F ch (r1 (r3 (P ch x))))); [reflexivity|now apply sample_maps|].
    apply (chain_cons 0 _ _ P (fun ch x => F ch (r1 (r3 x)))); [exact Hon|now apply channel_maps|].
    apply (chain_cons 0 _ _ (fun _ => r3) (fun ch x => F ch (r1 x))); [reflexivity|now apply sample_maps|].
    apply (chain_cons 0 _ _ (fun _ => r1) F); [reflexivity|now apply sample_maps|].
    apply (chain_cons 0 _ _ F (fun _ x => x)); [exact Hb2|now apply channel_maps|apply chain_nil].
  - destruct Hlo as [c0 [_ Elo]]. destruct Hhi as [c1 [_ Ehi]]. rewrite C in Elo, Ehi. cbn in Elo, Ehi. subst lo hi.
    rewrite Hr2s by lra. replace (through 0 0 9 1 1) with (1 / 9) by (unfold through; field).
    assert (P1 : entry1D arr 0 0 = 0).
    { destruct (He 0%nat 0%nat ltac:(lia) ltac:(lia)) as [A _]. apply A. rewrite C. unfold gridPoint. cbn. lra. }
    assert (P2 : entry1D arr 1 0 = 55 / 100).
    { destruct (He 1%nat 0%nat ltac:(lia) ltac:(lia)) as [_ [A _]].
      specialize (A 1%nat ltac:(lia)). rewrite !C in A. rewrite A; unfold gridPoint; cbn; lra. }
    assert (EP : P 0%nat (1 / 9) = 55 / 180).
    { destruct (HPs 0%nat ltac:(lia)) as [_ [_ [_ D]]]. rewrite (D 0%nat (1 / 9) ltac:(lia)).
      - change (0 + 1)%nat with 1%nat. rewrite P1, P2. unfold through, codeAt. cbn. field.
      - unfold codeAt. cbn. lra. }
    rewrite EP, Hr3s by lra. replace (through 0 0 1 1 (55 / 180)) with (55 / 180) by (unfold through; field).
    rewrite Hr1s by lra. replace (through 0 0 1 1 (55 / 180)) with (55 / 180) by (unfold through; field).
    rewrite (HFs 0%nat 0%nat); [rewrite !C; cbn; lra|lia|lia|cbn; lra].
Qed.

(** The exported list does not agree with the sampled one when the shaper's
    range is not [0, 1]. *)
Lemma bare_sampling c n1d n n2 : (2 <= n1d)%nat -> (2 <= n)%nat ->
  exists s, sample1D3D1D c (bareList []) n1d n n n n2 (Some "linear"%string) 0 2 None 0 1 = Ok s.
Proof.
  intros H1 Hn. unfold sample1D3D1D. cbn [createShaper bind given onlyIf String.eqb Ascii.eqb Bool.eqb].
  destruct (limitRange_maps c "" "" 0 2 0 1 ltac:(lra) ltac:(lra)) as [r1 [A1 _]].
  destruct (limitRange_maps c "" "" 0 1 0 2 ltac:(lra) ltac:(lra)) as [r2 [A2 _]].
  assert (M1 : mapsRGB c (bareList [limitRange "" "" 0 2 0 1]) (fun _ => r1)).
  { apply list_maps. apply (chain_cons c _ _ (fun _ => r1) (fun _ x => x)); [reflexivity|now apply sample_maps|apply chain_nil]. }
  assert (M2 : mapsRGB c (bareList [limitRange "" "" 0 1 0 2]) (fun _ => r2)).
  { apply list_maps. apply (chain_cons c _ _ (fun _ => r2) (fun _ x => x)); [reflexivity|now apply sample_maps|apply chain_nil]. }
  assert (M0 : mapsRGB c (bareList []) (fun _ x => x)) by (apply list_maps; apply chain_nil).
  pose proof (fun px => maps_colour _ _ _ px M1) as C1. pose proof (fun px => maps_colour _ _ _ px M2) as C2. pose proof (fun px => maps_colour _ _ _ px M0) as C0.
  unfold colourThrough in *. change (@n0 R realNum) with 0. change (@n1 R realNum) with 1.
  assert (T1 : exists t, fillSamples n1d (fun i => let* v := samplePoint i n1d 0 2 in runList c (bareList [limitRange "" "" 0 2 0 1]) [v; v; v]) = Ok t).
  { unfold fillSamples. rewrite fill_rows by (intros i v E; rewrite samplePoint_R in E by assumption; cbn [bind] in E; apply runList_length in E; exact E).
    rewrite (mapM_Ok _ (fun i => rgb (fun _ => r1) [gridPoint n1d 0 2 i; gridPoint n1d 0 2 i; gridPoint n1d 0 2 i])).
    - eexists. reflexivity.
    - intros i _. rewrite samplePoint_R by assumption. cbn [bind]. now apply C1. }
  destruct T1 as [t Et]. rewrite Et. cbn [bind].
  match goal with |- context [fillLattice n n n ?f] => set (G := f) end.
  assert (T3 : exists q, fillLattice n n n G = Ok q).
  { rewrite lattice_loop. eexists. apply mapM_Ok. intros r _. apply mapM_Ok. intros g _. apply mapM_Ok. intros b _. unfold G.
    rewrite !samplePos_R by assumption. cbn [bind]. rewrite C2 by reflexivity. cbn [bind]. rewrite C0 by reflexivity. reflexivity. }
  destruct T3 as [q Eq]. rewrite Eq. cbn [bind]. eexists. reflexivity.
Qed.

Theorem export_wrong :
  exists l n1d n n2 s out x,
    sample1D3D1D 0 l n1d n n n n2 (Some "linear"%string) 0 2 None 0 1 = Ok s /\
    exportCLF true true (s_in s) n1d (s_inMin s) (s_inMax s) (s_3d s) n n n (s_out s) = Ok out /\
    0 <= x <= 2 /\ colourThrough 0 l [x; x; x] = Ok [x; x; x] /\ colourThrough 0 out [x; x; x] = Ok [4 * x; 4 * x; 4 * x].
Proof.
  destruct (bare_sampling 0 2 2 2 ltac:(lia) ltac:(lia)) as [s Es].
  destruct (export_linear 0 (bareList []) 2 2 2 (Some "linear"%string) 0 2 0 2 0 1 s true) as [out [Eo Ho]]; [lia|lia|lia|left; repeat split; lra|exact Es|].
  exists (bareList []), 2%nat, 2%nat, 2%nat, s, out, (1 / 2). split; [exact Es|]. split; [exact Eo|]. split; [lra|].
  assert (M0 : mapsRGB 0 (bareList []) (fun _ x => x)) by (apply list_maps; apply chain_nil).
  split; [rewrite (maps_colour _ _ _ _ M0) by reflexivity; reflexivity|].
  rewrite (Ho 1%nat 1%nat 1%nat) by (lia || (unfold gridPoint; cbn; lra)).
  rewrite (maps_colour _ _ _ _ M0) by reflexivity. unfold rgb, indexed. cbn.
  replace (gridPoint 2 0 2 1) with (4 * (1 / 2)) by (unfold gridPoint; cbn; field). reflexivity.
Qed.

Theorem export_unit c l n1d n n2 inType pa pb po pq s :
  (2 <= n1d)%nat -> (2 <= n)%nat -> (2 <= n2)%nat ->
  (inType = Some "linear"%string /\ pa = 0 /\ pb = 1) \/ inType = None ->
  sample1D3D1D c l n1d n n n n2 inType pa pb None po pq = Ok s ->
  exists out, exportCLF true true (s_in s) n1d (s_inMin s) (s_inMax s) (s_3d s) n n n (s_out s) = Ok out /\
    forall r g k, (r < n)%nat -> (g < n)%nat -> (k < n)%nat ->
      colourThrough c out [gridPoint n 0 1 r; gridPoint n 0 1 g; gridPoint n 0 1 k] =
      colourThrough c l [gridPoint n 0 1 r; gridPoint n 0 1 g; gridPoint n 0 1 k].
Proof.
  intros H1 Hn H2 Hin E.
  destruct (export_linear c l n1d n n2 inType pa pb 0 1 po pq s true H1 Hn H2) as [out [Eo Ho]];
    [destruct Hin as [[-> [-> ->]]| ->]; [left; repeat split; lra|right; auto]|exact E|].
  exists out. split; [exact Eo|].
  assert (G : forall i, (i < n)%nat -> 0 <= gridPoint n 0 1 i <= 1).
  { intros i Hi. unfold gridPoint. assert (0 < INR (n - 1)) by (apply lt_0_INR; lia).
    assert (INR i <= INR (n - 1)) by (apply le_INR; lia). pose proof (pos_INR i).
    assert (0 < / INR (n - 1)) by now apply Rinv_0_lt_compat. unfold Rdiv.
    assert (0 <= INR i * / INR (n - 1)) by (apply Rmult_le_pos; lra).
    assert (INR i * / INR (n - 1) <= 1) by (apply Rmult_le_reg_r with (INR (n - 1)); [lra|]; rewrite Rmult_assoc, Rinv_l by lra; lra). lra. }
  intros r g k Hr Hg Hk. apply Ho; try assumption; try (now apply G); lra.
Qed.
