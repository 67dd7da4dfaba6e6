(** filterImageWithCLF from image to image. *)
From Coq Require Import Lia ZArith List String Reals.
From Flocq Require Import Core BinarySingleNaN.
From Verif Require Import NumF SpecFilterTool PBase PFilter PPack PCode PFilterCode.
Import ListNotations.
Local Open Scope string_scope.
Local Open Scope list_scope.

Section Cut.
  Context {T : Type}.
  Lemma cut_rows n m (l : list T) : List.length l = m * n -> exists rows, cutInto n rows l /\ List.length rows = m.
  Proof.
    revert l. induction m as [|m IH]; intros l H.
    - exists []. destruct l; [|discriminate]. repeat split. constructor.
    - destruct (IH (skipn n l)) as [rows [[E F] Hl]]; [rewrite skipn_length; lia|].
      exists (firstn n l :: rows). split; [split|].
      + cbn [List.concat]. now rewrite <- E, firstn_skipn.
      + constructor; [rewrite firstn_length; lia|exact F].
      + cbn. now rewrite Hl.
  Qed.
  Lemma each_map (f : list T -> option (list T)) g rows : (forall r, f r = Some (map g r)) -> each f rows = Some (map g (List.concat rows)).
  Proof. intro H. induction rows as [|r t IH]; [reflexivity|]. cbn [each List.concat]. now rewrite H, IH, map_app. Qed.
End Cut.

Section FilterTool.
  Variable L : libm.
  #[local] Instance NLw : Num fl := ieeeNum L.

  Lemma rescale_out c (d d' : aval) st (v : list fl) : aval_eqb d d' = false -> rescaled c d d' st v = Some (map (change1 L d d') v).
  Proof.
    intro H. unfold rescaled. rewrite H. pose proof (change_acts L c d d' st v) as A. unfold depthChange in A.
    change (@NL L) with NLw in A.
    destruct (nodeProcess c (newRange d d' (AStr "") (AStr "") (AStr "") ANone) v st) as [o|e]; [|discriminate A].
    cbn [outcome] in A. apply Ok_inj in A. cbn [colours]. now rewrite A.
  Qed.
  Lemma empty_row c (l : plist fl) d d' st row : procs_of l = [] ->
    filteredRow c l d d' st row = Some (map (sampleOut L (AStr d) (AStr d')) row).
  Proof.
    intro H. unfold filteredRow, listInDepth, listOutDepth. rewrite H. cbn [rev].
    rewrite rescale_out by reflexivity. unfold listProcess. rewrite H. cbn [chain colours po_out].
    rewrite rescale_out by reflexivity. f_equal. rewrite !map_map. apply map_ext. intro x. unfold sampleOut. f_equal.
    unfold change1 at 1 2. apply f32_twice.
  Qed.

  Lemma read_codes (s : stored fl) d ks : holdsCodes s d ks ->
    exists tagged, readPixelArray (Some s) =
      Ok ({| i_width := o_width s; i_height := o_height s; i_channels := o_channels s; i_depth := d; i_pixels := map nofZ ks |}, tagged).
  Proof.
    intro H. destruct H as [ks E H|ks E Eb H|b vs E Eb Hb H]; unfold readPixelArray; rewrite E.
    - eexists. reflexivity.
    - rewrite Eb. eexists. reflexivity.
    - rewrite Eb. assert (M : mapM (readSample b) vs = Ok (map (fun v => v / 2 ^ (16 - b))%Z vs)).
      { clear E H. induction vs as [|v t IH]; [reflexivity|]. cbn [mapM map]. rewrite IH. unfold readSample, readShift.
        destruct (Z.eqb_spec (16 - b) 0) as [Z0|Z0].
        - rewrite Z0. cbn [bind]. change (2 ^ 0)%Z with 1%Z. now rewrite Z.div_1_r.
        - destruct (Z.ltb_spec (16 - b) 0); [lia|]. cbn [bind]. rewrite Z.shiftr_div_pow2 by lia. reflexivity. }
      rewrite M. eexists. reflexivity.
  Qed.
  Lemma codes_in (s : stored fl) d ks a : holdsCodes s d ks -> largestCode (AStr d) = Some a -> Forall (isCode a) ks.
  Proof.
    intros H E. destruct H as [ks _ H|ks _ _ H|b vs _ _ Hb H].
    - injection E as <-. exact H.
    - injection E as <-. exact H.
    - rewrite Forall_forall in H |- *. intros x Hx. apply in_map_iff in Hx as (v & <- & Hv). specialize (H v Hv). unfold isCode in *.
      assert (P : (0 < 2 ^ (16 - b))%Z) by (apply Z.pow_pos_nonneg; lia).
      split; [apply Z.div_pos; lia|].
      destruct (Z.eqb_spec b 10) as [->|N1]; [injection E as <-; change (2 ^ (16 - 10))%Z with 64%Z; apply Z.lt_succ_r, Z.div_lt_upper_bound; lia|].
      destruct (Z.eqb_spec b 12) as [->|N2]; [injection E as <-; change (2 ^ (16 - 12))%Z with 16%Z; apply Z.lt_succ_r, Z.div_lt_upper_bound; lia|].
      injection E as <-. apply Z.le_trans with v; [|lia]. apply Z.div_le_upper_bound; [exact P|nia].
  Qed.

  Lemma write_codes d d' a b ks tagged : largestCode (AStr d) = Some a -> largestCode (AStr d') = Some b -> Forall (isCode a) ks ->
    writePixelArray d' tagged (map (fun k => change1 L (AStr d) (AStr d') (nofZ k)) ks) =
    Ok (writtenCodes d' (map (newCode a b) ks), Some (writtenBits d')).
  Proof.
    intros Ha Hb F.
    assert (Tag : bitsTag d' tagged = Ok (Some (writtenBits d'))).
    { destruct (depth_cases L (AStr d') b Hb) as (n & _). unfold bitsTag, sampleTypeOf, bitDepthValue, writtenBits. cbn [largestCode] in Hb.
      destruct (String.eqb_spec d' "8i") as [->|N1]; [destruct tagged; reflexivity|].
      destruct (String.eqb_spec d' "10i") as [->|N2]; [destruct tagged; reflexivity|].
      destruct (String.eqb_spec d' "12i") as [->|N3]; [destruct tagged; reflexivity|].
      destruct (String.eqb_spec d' "16i") as [->|N4]; [destruct tagged; reflexivity|]. exfalso. revert Hb.
      repeat (match goal with |- context [match ?b with _ => _ end] => destruct b end; try discriminate; try congruence). }
    assert (P : forall bits shift, (0 <= shift)%Z -> (shift <= bits <= 16)%Z -> b = (2 ^ (bits - shift) - 1)%Z ->
      mapM (packSample bits shift) (map (fun k => change1 L (AStr d) (AStr d') (nofZ k)) ks) = Ok (map (fun k => k * 2 ^ shift)%Z (map (newCode a b) ks))).
    { intros bits shift Hs Hbs Eb. induction F as [|k t Hk F IH]; [reflexivity|]. cbn [map mapM]. rewrite IH.
      destruct (sample_between L (AStr d) (AStr d') a b k Ha Hb Hk) as (Fi & B & Hn).
      rewrite (pack_between L bits shift (newCode a b k)); [reflexivity|exact Hs|exact Hbs|exact Fi|lia|exact B]. }
    unfold writePixelArray. rewrite Tag. unfold packPixels, sampleTypeOf, writtenCodes, writeShift. cbn [largestCode] in Hb.
    destruct (String.eqb_spec d' "8i") as [->|N1].
    { injection Hb as <-. cbn [bind]. rewrite (P 8%Z 0%Z) by (lia || reflexivity). cbn [bind]. do 2 f_equal. f_equal. rewrite map_map. apply map_ext. intro. lia. }
    destruct (String.eqb_spec d' "10i") as [->|N2].
    { injection Hb as <-. cbn [bind orb]. rewrite (P 16%Z 6%Z) by (lia || reflexivity). reflexivity. }
    destruct (String.eqb_spec d' "12i") as [->|N3].
    { injection Hb as <-. cbn [bind orb]. rewrite (P 16%Z 4%Z) by (lia || reflexivity). reflexivity. }
    destruct (String.eqb_spec d' "16i") as [->|N4].
    { injection Hb as <-. cbn [bind orb]. rewrite (P 16%Z 0%Z) by (lia || reflexivity). cbn [bind]. do 2 f_equal. f_equal. rewrite map_map. apply map_ext. intro. lia. }
    exfalso. revert Hb. repeat (match goal with |- context [match ?b with _ => _ end] => destruct b end; try discriminate; try congruence).
  Qed.

  Theorem filter_codes c (l : plist fl) (s : stored fl) d ks o d' a b k :
    holdsCodes s d ks -> hasPicture s ks -> asked d o d' ->
    largestCode (AStr d) = Some a -> largestCode (AStr d') = Some b -> procs_of l = [] -> 2 <= k ->
    filterCall c l (Some s) o k (TWrites (writtenCodes d' (map (newCode a b) ks)) (Some (writtenBits d'))) /\
    forall e, filterCall c l (Some s) o k e ->
      e = TWrites (writtenCodes d' (map (newCode a b) ks)) (Some (writtenBits d')) \/ e = TNothing.
  Proof.
    intros H (P1 & P2 & P3) Ho Ha Hb Hl Hk.
    destruct (read_codes s d ks H) as [tagged E]. pose proof (codes_in s d ks a H Ha) as F.
    set (img := {| i_width := o_width s; i_height := o_height s; i_channels := o_channels s; i_depth := d; i_pixels := map nofZ ks |}) in *.
    assert (Od : outDepthOf img o = d').
    { unfold outDepthOf. destruct Ho as [->|[-> ->]]; [|reflexivity].
      destruct (existsb (String.eqb d') ["8i"; "10i"; "12i"; "16i"; "16f"; "32f"]) eqn:X; [reflexivity|]. exfalso. cbn [existsb] in X. cbn [largestCode] in Hb.
      apply orb_false_elim in X as [X1 X]. apply orb_false_elim in X as [X2 X]. apply orb_false_elim in X as [X3 X]. apply orb_false_elim in X as [X4 X].
      apply String.eqb_neq in X1, X2, X3, X4. revert Hb.
      repeat (match goal with |- context [match ?b with _ => _ end] => destruct b end; try discriminate; try congruence). }
    destruct (cut_rows (i_width img * i_channels img) (i_height img) (i_pixels img)) as [rows Hr].
    { cbn [img i_width i_channels i_height i_pixels]. rewrite map_length. exact P3. }
    assert (W : forall f, filterInTime c l img o k f -> f = FWrite (map (fun k => change1 L (AStr d) (AStr d') (nofZ k)) ks)).
    { intros f Hf. rewrite (multi_result c l img o k rows f P1 P2 Hr Hf). unfold thr. rewrite Od.
      rewrite (each_map _ (sampleOut L (AStr d) (AStr d'))) by (intro r; now apply empty_row).
      destruct Hr as [[<- _] _]. f_equal. cbn [img i_pixels]. rewrite !map_map. apply map_ext_in. intros x Hx.
      rewrite Forall_forall in F. specialize (F x Hx).
      assert (Bx : (0 <= x <= 65535)%Z).
      { destruct F as [F0 F1]. destruct (depth_cases L (AStr d) a Ha) as (n & Hn & En & _). split; [exact F0|]. apply Z.le_trans with (1 := F1). subst a.
        destruct Hn as [<-|[<-|[<-|[<-|[]]]]]; cbn; lia. }
      change (@nofZ fl NLw x) with (@nofZ fl (ieeeNum L) x). rewrite (sample_change L (AStr d) (AStr d') x Bx). unfold change1. apply f32_twice. }
    pose proof (write_codes d d' a b ks tagged Ha Hb F) as Wc.
    split.
    - destruct (multi_runs c l img o k) as [f Hf]; [lia|]. pose proof (W f Hf) as Ef. subst f.
      pose proof (CallRun c l (Some s) o k img tagged _ E (in_time_is_run c l img o k _ Hk Hf)) as C. cbn beta iota in C. rewrite Od in C.
      change (@NLw) with (ieeeNum L) in *. rewrite Wc in C. exact C.
    - intros e C. destruct C as [e' E'|img' tagged' f E' Hf]; [congruence|]. rewrite E in E'. apply Ok_inj in E'. injection E' as <- <-.
      destruct (multi_or_timeout c l img o k f Hk Hf) as [->|Ht]; [now right|]. left. rewrite (W f Ht), Od. 
      rewrite Wc. reflexivity.
  Qed.

  Lemma same_codes a ks : Forall (isCode a) ks -> (0 < a)%Z -> map (newCode a a) ks = ks.
  Proof.
    intros F Ha. induction F as [|k t Hk F IH]; [reflexivity|]. cbn [map]. rewrite IH. f_equal. unfold newCode. rewrite Z.div_mul by lia.
    destruct (_ && _)%bool eqn:B; [|lia]. exfalso. apply andb_prop in B as [B1 B2]. apply Z.eqb_eq in B1. rewrite B1 in B2. discriminate.
  Qed.
  Lemma largest_pos d a : largestCode d = Some a -> (0 < a)%Z.
  Proof. intro H. destruct (depth_cases L d a H) as (n & Hn & -> & _). destruct Hn as [<-|[<-|[<-|[<-|[]]]]]; reflexivity. Qed.
  Theorem filter_same c (l : plist fl) (s : stored fl) d ks a k :
    holdsCodes s d ks -> hasPicture s ks -> largestCode (AStr d) = Some a -> procs_of l = [] -> 2 <= k ->
    filterCall c l (Some s) None k (TWrites (writtenCodes d ks) (Some (writtenBits d))) /\
    forall e, filterCall c l (Some s) None k e -> e = TWrites (writtenCodes d ks) (Some (writtenBits d)) \/ e = TNothing.
  Proof.
    intros H P Ha Hl Hk. pose proof (filter_codes c l s d ks None d a a k H P (or_intror (conj eq_refl eq_refl)) Ha Ha Hl Hk) as R.
    rewrite (same_codes a ks (codes_in s d ks a H Ha) (largest_pos _ _ Ha)) in R. exact R.
  Qed.
  Theorem filter_other_bits c (l : plist fl) (s : stored fl) b vs k :
    o_samples s = SUInt16 vs -> o_bits s = Some b -> (1 <= b <= 16)%Z -> b <> 10%Z -> b <> 12%Z -> Forall (isCode 65535) vs ->
    hasPicture s vs -> procs_of l = [] -> 2 <= k ->
    filterCall c l (Some s) None k (TWrites (PInts 16 (map (fun v => v / 2 ^ (16 - b)) vs)%Z) (Some 16%Z)) /\
    forall e, filterCall c l (Some s) None k e -> e = TWrites (PInts 16 (map (fun v => v / 2 ^ (16 - b)) vs)%Z) (Some 16%Z) \/ e = TNothing.
  Proof.
    intros H1 H2 Hb N1 N2 F (P1 & P2 & P3) Hl Hk. pose proof (CodesUpper s b vs H1 H2 Hb F) as H.
    apply Z.eqb_neq in N1, N2. rewrite N1, N2 in H.
    apply (filter_same c l s "16i" _ 65535 k H); [|reflexivity|exact Hl|exact Hk]. split; [exact P1|]. split; [exact P2|]. now rewrite map_length.
  Qed.

  (** Code 617 of 10 bits goes up. *)
  Definition rising : stored fl := {| o_width := 1; o_height := 2; o_channels := 1; o_bits := Some 10%Z; o_samples := SUInt16 [617 * 64; 0]%Z |}.
  Theorem rounds_up : exists c (l : plist fl) s d ks o d' a b k e,
    holdsCodes s d ks /\ hasPicture s ks /\ asked d o d' /\ largestCode (AStr d) = Some a /\ largestCode (AStr d') = Some b /\ procs_of l = [] /\ 2 <= k /\
    filterCall c l (Some s) o k e /\ e <> TNothing /\ forall tag, e <> TWrites (writtenCodes d' (map (fun k => k * b / a)%Z ks)) tag.
  Proof.
    exists 0%Z, (PList [] [] [] []), rising, "10i", [617; 0]%Z, (Some "16i"), "16i", 1023%Z, 65535%Z, 2.
    exists (TWrites (writtenCodes "16i" (map (newCode 1023 65535) [617; 0]%Z)) (Some (writtenBits "16i"))).
    assert (H : holdsCodes rising "10i" [617; 0]%Z).
    { apply (CodesUpper rising 10 [617 * 64; 0]%Z); try reflexivity; [lia|]. repeat constructor; unfold isCode; lia. }
    assert (P : hasPicture rising [617; 0]%Z) by (split; [cbn; lia|split; [cbn; lia|reflexivity]]).
    split; [exact H|]. split; [exact P|]. split; [now left|]. split; [reflexivity|]. split; [reflexivity|]. split; [reflexivity|]. split; [lia|].
    split; [apply (filter_codes 0%Z (PList [] [] [] []) rising "10i" [617; 0]%Z (Some "16i") "16i" 1023 65535 2 H P); try reflexivity; now left|].
    split; [discriminate|]. intros tag E. injection E as E _. discriminate E.
  Qed.
End FilterTool.
