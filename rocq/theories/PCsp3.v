(** .csp files with a 3D table, or with two columns. *)
From Coq Require Import List Arith Lia ZArith String Ascii Bool.
From Verif Require Import PBase PFacts PRegistry PNumText PLutText PInverse2 PGrid PXmlArray PSpi PSpi3 PCsp PCsp2 SpecLut.
Import ListNotations.
Local Open Scope string_scope.
Local Open Scope list_scope.

(** A number below n^3 in its three digits. *)
Lemma digits3 n i : i < n * n * n ->
  let r := i mod n in let g := (i / n) mod n in let b := i / (n * n) in
  r < n /\ g < n /\ b < n /\ i = (b * n + g) * n + r.
Proof.
  intros H r g b. assert (Hn : n <> 0) by (intros ->; lia). unfold r, g, b. rewrite <- Nat.div_div by assumption.
  pose proof (Nat.div_mod i n Hn). pose proof (Nat.div_mod (i / n) n Hn).
  pose proof (Nat.mod_upper_bound i n Hn). pose proof (Nat.mod_upper_bound (i / n) n Hn).
  repeat split; try assumption; [|nia]. apply Nat.div_lt_upper_bound; [exact Hn|]. apply Nat.div_lt_upper_bound; [exact Hn|]. nia.
Qed.

Section Csp3.
  Context {T : Type} {NM : Num T} {X : NumText T} {OK : TextOk T}.

  Lemma cspRows_text (data : lattice T) r0 r1 r2 f : latticeOf data r2 r1 r0 f ->
    cspRows data r0 r1 r2 = Ok (map csp3Row (cells r0 r1 r2 (fun b g r => f r g b))).
  Proof.
    intro D. unfold cspRows. rewrite (nested_mapM r0 r1 r2 _ (fun b g r => csp3Row (f r g b)) (fun rows => Ok rows)).
    - now rewrite cells_map.
    - intros b g r Hb Hg Hr. destruct (D r g b Hr Hg Hb) as [-> _]. reflexivity.
  Qed.
  Lemma rows3D_lines (rows : list (list T)) : Forall oneLine (map csp3Row rows).
  Proof. apply Forall_forall. intros l Hl. apply in_map_iff in Hl as (vs & <- & _). apply csp3Row_line. Qed.

  Lemma rows3D_placed n (f : nat -> nat -> nat -> list T) :
    (forall r g b, r < n -> g < n -> b < n -> List.length (f r g b) = 3) ->
    exists vals, cspLut "3D" [n; n; n] (map csp3Row (cells n n n (fun b g r => f r g b))) =
      Ok (lut3dNode "lut3d" "trilinear" n n n vals) /\ tableOf vals n n n (fun r g b => map (viaFixed 6) (f r g b)).
  Proof.
    intro D. unfold cspLut. cbn [getn nth_error bind]. change (String.eqb "3D" "3D") with true. cbv iota.
    rewrite cspSamples_eq. set (rows := cells n n n (fun b g r => f r g b)). set (rows' := map (map (viaFixed 6)) rows).
    assert (F : Forall (fun r => List.length r = 3) rows).
    { apply Forall_forall. intros v Hv. apply cells_in in Hv as (b & g & r & ? & ? & ? & ->). now apply D. }
    assert (Lr : List.length rows' = n * n * n) by (unfold rows', rows; now rewrite map_length, cells_length).
    destruct (place_rows (cspPlace n n) (fun i => (i mod n * n + (i / n) mod n) * n + i / (n * n)) (n * n * n) (map csp3Row rows) rows' 0
                (repeat n0 (n * n * n * 3))) as (s & E & Ls & C & _).
    - unfold rows'. clear - F OK. induction F as [|r rows Hr F IH]; cbn [map]; constructor; [|exact IH].
      split; [apply csp3Row_reads|now rewrite map_length].
    - apply repeat_length.
    - rewrite Lr. cbn [Nat.add]. intros i [_ Hi]. destruct (digits3 n i Hi) as (Hr & Hg & Hb & _). split.
      + unfold cspPlace. destruct n; [lia|]. reflexivity.
      + now apply cell_lt.
    - rewrite Lr. cbn [Nat.add]. intros i j [_ Hi] [_ Hj] H.
      destruct (digits3 n i Hi) as (Hr & Hg & Hb & Ei), (digits3 n j Hj) as (Hr' & Hg' & Hb' & Ej).
      revert H Ei Ej Hr Hg Hb Hr' Hg' Hb'. generalize (i mod n) (j mod n) ((i / n) mod n) ((j / n) mod n) (i / (n * n)) (j / (n * n)).
      clear. intros r r' g g' b b' H Ei Ej Hr Hg Hb Hr' Hg' Hb'.
      assert (Q : b = b' /\ r * n + g = r' * n + g').
      { assert (n <> 0) by lia. split.
        - apply (f_equal (fun x => x mod n)) in H. rewrite !(Nat.add_comm (_ * n)), !Nat.mod_add, !Nat.mod_small in H by lia. exact H.
        - apply (f_equal (fun x => x / n)) in H. rewrite !Nat.div_add_l, !Nat.div_small, !Nat.add_0_r in H by lia. exact H. }
      destruct Q as [-> Q]. assert (P : g = g' /\ r = r').
      { assert (n <> 0) by lia. split.
        - apply (f_equal (fun x => x mod n)) in Q. rewrite !(Nat.add_comm (_ * n)), !Nat.mod_add, !Nat.mod_small in Q by lia. exact Q.
        - apply (f_equal (fun x => x / n)) in Q. rewrite !Nat.div_add_l, !Nat.div_small, !Nat.add_0_r in Q by lia. exact Q. }
      destruct P as [-> ->]. lia.
    - exists s. rewrite E. cbn [bind snd]. rewrite lut3d_node. split; [reflexivity|]. split; [exact Ls|].
      intros r g b Hr Hg Hb. change (cellAt s ((r * n + g) * n + b) = map (viaFixed 6) (f r g b)).
      assert (Hi : (b * n + g) * n + r < n * n * n) by now apply cell_lt.
      specialize (C ((b * n + g) * n + r)). rewrite Lr in C. specialize (C Hi). cbn [Nat.add] in C.
      destruct (digits3 n _ Hi) as (_ & _ & Hb'' & _).
      assert (Em : ((b * n + g) * n + r) mod n = r) by (rewrite (Nat.add_comm (_ * n)), Nat.mod_add, Nat.mod_small by lia; reflexivity).
      assert (Ed : ((b * n + g) * n + r) / n = b * n + g) by (rewrite Nat.div_add_l, Nat.div_small by lia; lia).
      assert (Eg : (b * n + g) mod n = g) by (rewrite (Nat.add_comm (_ * n)), Nat.mod_add, Nat.mod_small by lia; reflexivity).
      assert (Eb : ((b * n + g) * n + r) / (n * n) = b) by (rewrite <- Nat.div_div, Ed, Nat.div_add_l, Nat.div_small by lia; lia).
      rewrite Em, Ed, Eg, Eb in C. rewrite C. unfold rows', rows. rewrite (nth_indep _ [] (map (viaFixed 6) [])).
      + rewrite map_nth. f_equal. apply nth_error_nth. now rewrite cell_index.
      + now rewrite map_length, cells_length.
  Qed.

  Theorem csp3d_round_trip (lo hi : T) data n f : latticeOf data n n n f ->
    exists t vals, writeCSP3D lo hi data n n n = Ok t /\
      readCSP t = Ok [rangeNode "prelut_range" (viaFixed 6 lo) (viaFixed 6 hi); lut3dNode "lut3d" "trilinear" n n n vals] /\
      tableOf vals n n n (fun r g b => map (viaFixed 6) (f r g b)).
  Proof.
    intro D. unfold writeCSP3D. rewrite (cspRows_text _ _ _ _ f D). cbn [bind].
    destruct (rows3D_placed n f) as (vals & E & Tv); [intros; now apply D|]. eexists _, vals. split; [reflexivity|]. split; [|exact Tv].
    rewrite head_read; [|now right|discriminate|apply rows3D_lines]. rewrite E. reflexivity.
  Qed.

  (** Rows of two values are skipped. *)
  Lemma short_rows place rows (s : list T) : (forall i, is_ok (place i)) -> Forall (fun r => List.length r <> 3) rows -> forall i0,
    exists i1, for_each (map csp1Row rows) (stepRow place) (i0, s) = Ok (i1, s).
  Proof.
    intros P F. induction F as [|r rows Hr F IH]; intro i0; [eexists; reflexivity|]. cbn [map for_each]. unfold stepRow at 1.
    specialize (P i0). destruct (place i0) as [c|]; [|destruct P; discriminate]. cbn [bind]. rewrite csp1Row_reads. cbn [bind].
    rewrite map_length. apply Nat.eqb_neq in Hr. rewrite Hr. apply IH.
  Qed.
  Theorem csp1d_two (lo hi : T) data entries channels components :
    Nat.min 3 (Nat.min components channels) = 2 -> entries * channels <= List.length data ->
    exists t, writeCSP1D lo hi data entries channels components = Ok t /\
      readCSP t = Ok [rangeNode "prelut_range" (viaFixed 6 lo) (viaFixed 6 hi);
                      lut1dNode "lut1d" "linear" entries 3 (repeat n0 (entries * 3))].
  Proof.
    intros K L. eexists. split; [apply write1D_text; [exact L|lia]|]. rewrite K. rewrite head_read; [|now left|discriminate|apply rows1D_lines].
    unfold cspLut. cbn [getn nth_error bind]. change (String.eqb "1D" "3D") with false. cbv iota. rewrite cspSamples_eq, for_each_app.
    destruct (short_rows (fun i => Ok i) (map (shownRow 2 channels data) (seq 0 entries)) (repeat n0 (entries * 3))) with (i0 := 0) as [i1 E].
    - intro. eexists. reflexivity.
    - apply Forall_forall. intros r Hr. apply in_map_iff in Hr as (i & <- & _). unfold shownRow. cbn [Nat.eqb]. rewrite firstn_length. lia.
    - rewrite E. cbn [bind for_each stepRow]. change (mapM parseFloat (MNumText.split "")) with (@Ok (list T) []). cbn [bind snd List.length Nat.eqb].
      rewrite (lut1d_node _ _ entries); [reflexivity|discriminate|apply repeat_length].
  Qed.
End Csp3.
