(** Reading back written .csp files. *)
From Coq Require Import List Arith Lia ZArith String Ascii Bool.
From Verif Require Import PBase PFacts PRegistry PNumText PLutText PInverse2 PGrid PXmlArray PSpi PSpi3 PCsp SpecLut.
Import ListNotations.
Local Open Scope string_scope.
Local Open Scope list_scope.

Section Csp.
  Context {T : Type} {NM : Num T} {X : NumText T} {OK : TextOk T}.

  Lemma pymin_same (a : T) : pymin a a = a.
  Proof. unfold pymin. now destruct (nltb a a). Qed.
  Lemma pymax_same (a : T) : pymax a a = a.
  Proof. unfold pymax. now destruct (nltb a a). Qed.

  (** A two-point prelut, the same for the three channels, is a Range. *)
  Lemma prelut_two (a b : T) outs : generateCLFPrelut ([a; b], outs) ([a; b], outs) ([a; b], outs) = Ok [rangeNode "prelut_range" a b].
  Proof. unfold generateCLFPrelut. cbn [fst List.length Nat.max]. change (Nat.ltb 2 2) with false. cbn [getn nth_error bind].
    change (pyget [a; b] (-1)) with (Ok b). cbn [bind]. now rewrite !pymin_same, !pymax_same, limit_range. Qed.

  Definition cspLut (format : string) (resolution : list nat) (rows : list string) : res (node T) :=
    let* r0 := getn resolution 0 in
    if String.eqb format "3D" then
      let* r1 := getn resolution 1 in
      let* r2 := getn resolution 2 in
      let* samples := cspSamples (cspPlace r0 r1) rows (repeat n0 (r0 * r1 * r2 * 3)) in
      Ok (setArray3D (newLUT3D (AStr "16f") (AStr "16f") (AStr "lut3d") (AStr "lut3d") (AStr "trilinear")) resolution samples "string")
    else
      let* samples := cspSamples (fun i => Ok i) rows (repeat n0 (r0 * 3)) in
      setArray1D (newLUT1D (AStr "16f") (AStr "16f") (AStr "lut1d") (AStr "lut1d") (AStr "linear") (AStr "") (AStr "")) 3 samples "string".

  Lemma header_lines fmt (lo hi : T) : fmt = "1D" \/ fmt = "3D" -> Forall oneLine (cspHeader fmt lo hi).
  Proof.
    intro F. assert (M : oneLine (fmtF lo ++ " " ++ fmtF hi)%string).
    { apply oneLine_app; [apply oneLine_word, fmtF_word|]. apply oneLine_app; [now repeat constructor|apply oneLine_word, fmtF_word]. }
    unfold cspHeader. cbn [app].
    repeat match goal with
           | |- Forall _ [] => constructor
           | |- Forall _ (String.append _ _ :: _) => constructor; [exact M|]
           | |- Forall _ (fmt :: _) => constructor; [destruct F as [->| ->]; now repeat constructor|]
           | |- Forall _ (_ :: _) => constructor; [now repeat constructor|]
           end.
  Qed.

  Lemma head_read fmt (lo hi : T) resolution rows : fmt = "1D" \/ fmt = "3D" -> resolution <> [] -> Forall oneLine rows ->
    readCSP (lines (cspHeader fmt lo hi ++ [join " " (map natText resolution)] ++ rows)) =
    (let* lut := cspLut fmt resolution rows in Ok [rangeNode "prelut_range" (viaFixed 6 lo) (viaFixed 6 hi); lut]).
  Proof.
    intros F Rn Rl. unfold readCSP. rewrite splitLines_all.
    2:{ apply Forall_app. split; [now apply header_lines|]. constructor; [|exact Rl].
        apply oneLine_join; [now repeat constructor|]. refine (Forall_impl _ _ (nats_word _)). apply oneLine_word. }
    set (resLine := join " " (map natText resolution)).
    assert (Sr : MNumText.split resLine = map natText resolution) by apply split_join, nats_word.
    unfold cspHeader. cbn [app].
    set (io := (fmtF lo ++ " " ++ fmtF hi)%string).
    assert (Si : mapM parseFloat (MNumText.split io) = Ok [viaFixed 6 lo; viaFixed 6 hi]).
    { unfold io. rewrite split_two by apply fmtF_word. cbn [mapM]. rewrite !fmtF_parse. reflexivity. }
    clearbody io.
    destruct (mapM parseFloat (MNumText.split "0.0 1.0")) as [outs|e] eqn:So; [|vm_compute in So; discriminate So].
    assert (I2 : parseInt "2" = Ok 2%Z) by reflexivity.
    cbn [getn nth_error bind skipn].
    change (MNumText.split "CSPLUTV100") with ["CSPLUTV100"]. cbn [getn nth_error bind]. change (String.eqb "CSPLUTV100" "CSPLUTV100") with true. cbv iota.
    assert (Sf : MNumText.split fmt = [fmt]) by (destruct F as [->| ->]; reflexivity). rewrite Sf. cbn [getn nth_error bind].
    assert (Ff : String.eqb fmt "1D" || String.eqb fmt "3D" = true) by (destruct F as [->| ->]; reflexivity). rewrite Ff.
    change (afterBegin ("" :: "BEGIN METADATA" :: ?l)) with (Ok l). cbn [bind].
    change (afterEnd ("END METADATA" :: "" :: ?l)) with l.
    change (skipBlank ("2" :: ?l)) with (Ok ("2" :: l)). cbn [bind].
    unfold readPrelut. cbn [getn nth_error bind Nat.add]. rewrite I2. cbn [bind]. rewrite Si, So. cbn [bind skipn].
    cbn [skipBlank]. rewrite rstrip_nonempty by (rewrite Sr; now destruct resolution). cbn [bind getn nth_error]. rewrite Sr, parse_nats. cbn [bind].
    unfold cspLut. destruct (getn resolution 0) as [r0|]; [|reflexivity]. cbn [bind].
    match goal with |- bind ?r _ = bind ?r _ => destruct r end; [|reflexivity]. cbn [bind]. now rewrite prelut_two.
  Qed.

  (** ** Rows *)
  Definition csp1Row (vs : list T) : string := String.concat "" (map (fun v => (" " ++ fmt3 6 v)%string) vs).
  Lemma csp1Row_split vs : MNumText.split (csp1Row vs) = map fmtF vs.
  Proof.
    unfold csp1Row. rewrite <- (split_row "" (map fmtF vs) 3).
    - f_equal. cbn [String.append]. rewrite map_map. reflexivity.
    - constructor.
    - apply Forall_forall. intros w Hw. apply in_map_iff in Hw as (x & <- & _). apply fmtF_word.
  Qed.
  Lemma fmts_parse vs : mapM parseFloat (map fmtF vs) = Ok (map (viaFixed 6) vs : list T).
  Proof. apply mapM_parse. intros x _. apply fmtF_parse. Qed.
  Lemma csp1Row_reads vs : rowReads (csp1Row vs) (map (viaFixed 6) vs).
  Proof. unfold rowReads. now rewrite csp1Row_split, fmts_parse. Qed.
  Lemma fmt3_line k (x : T) : oneLine (fmt3 k x).
  Proof. apply oneLine_pad, oneLine_word, word_formatFixed. Qed.
  Lemma csp1Row_line vs : oneLine (csp1Row vs).
  Proof.
    apply oneLine_concat. apply Forall_forall. intros w Hw. apply in_map_iff in Hw as (x & <- & _).
    apply oneLine_app; [now repeat constructor|apply fmt3_line].
  Qed.
  Definition csp3Row (vs : list T) : string := join " " (map (fmt3 6) vs).
  Lemma csp3Row_reads vs : rowReads (csp3Row vs) (map (viaFixed 6) vs).
  Proof.
    unfold rowReads, csp3Row, fmt3. rewrite <- (map_map (formatFixed 6) (padLeft 3)), split_join_pad.
    - apply fmts_parse.
    - apply Forall_forall. intros w Hw. apply in_map_iff in Hw as (x & <- & _). apply fmtF_word.
  Qed.
  Lemma csp3Row_line vs : oneLine (csp3Row vs).
  Proof.
    apply oneLine_join; [now repeat constructor|]. apply Forall_forall. intros w Hw. apply in_map_iff in Hw as (x & <- & _). apply fmt3_line.
  Qed.

  (** ** 1D *)
  Definition shownRow (k channels : nat) (data : list T) (i : nat) : list T :=
    if Nat.eqb k 1 then repeat (nth (i * channels) data n0) 3 else firstn k (skipn (i * channels) data).
  Lemma write1D_text (lo hi : T) data entries channels components :
    let k := Nat.min 3 (Nat.min components channels) in entries * channels <= List.length data -> k <> 0 ->
    writeCSP1D lo hi data entries channels components =
    Ok (lines (cspHeader "1D" lo hi ++ [join " " (map natText [entries])] ++ map csp1Row (map (shownRow k channels data) (seq 0 entries)) ++ [""])).
  Proof.
    intros k L K. unfold writeCSP1D. fold k. assert (Kc : k <= channels) by lia. clearbody k.
    rewrite (mapM_Ok _ (fun i => csp1Row (shownRow k channels data i))).
    - cbn [bind]. do 4 f_equal. now rewrite map_map.
    - intros i Hi. apply in_seq in Hi. assert (i * channels + channels <= entries * channels) by nia. unfold shownRow.
      destruct (Nat.eqb k 1).
      + destruct (getn_lt data (i * channels)) as [x E]; [lia|]. cbn [seq mapM]. rewrite E. cbn [bind].
        apply getn_some, nth_error_nth with (d := n0) in E. rewrite E. reflexivity.
      + rewrite row_get by lia. reflexivity.
  Qed.
  Lemma rows1D_lines rows : Forall oneLine (map csp1Row rows ++ [""]).
  Proof.
    apply Forall_app. split; [|now repeat constructor]. apply Forall_forall. intros l Hl. apply in_map_iff in Hl as (vs & <- & _). apply csp1Row_line.
  Qed.
  Lemma rows1D_placed rows : Forall (fun r => List.length r = 3) rows ->
    cspLut "1D" [List.length rows] (map csp1Row rows ++ [""]) =
    Ok (lut1dNode "lut1d" "linear" (List.length rows) 3 (map (viaFixed 6) (List.concat rows)) : node T).
  Proof.
    intro F. unfold cspLut. cbn [getn nth_error bind]. change (String.eqb "1D" "3D") with false. cbv iota.
    rewrite cspSamples_eq, for_each_app. set (rows' := map (map (viaFixed 6)) rows).
    destruct (place_rows (fun i => Ok i) (fun i => i) (List.length rows) (map csp1Row rows) rows' 0 (repeat n0 (List.length rows * 3)))
      as (s & E & Ls & C & _).
    - unfold rows'. clear - F OK. induction F as [|r rows Hr F IH]; cbn [map]; constructor; [|exact IH].
      split; [apply csp1Row_reads|now rewrite map_length].
    - apply repeat_length.
    - unfold rows'. rewrite map_length. intros i Hi. split; [reflexivity|lia].
    - intros; assumption.
    - rewrite E. cbn [bind for_each stepRow]. change (mapM parseFloat (MNumText.split "")) with (@Ok (list T) []). cbn [bind snd List.length Nat.eqb].
      unfold rows' in *. rewrite map_length in *.
      rewrite (cells_eq (List.length rows) s (map (map (viaFixed 6)) rows) Ls).
      + rewrite concat_map. apply lut1d_node; [discriminate|]. rewrite <- concat_map, map_length. now rewrite (concat_rows_length 3).
      + apply map_length.
      + apply Forall_forall. intros r Hr. apply in_map_iff in Hr as (x & <- & Hx). rewrite map_length. rewrite Forall_forall in F. now apply F.
      + intros c Hc. exact (C c Hc).
  Qed.
  Theorem csp1d_three (lo hi : T) data entries channels components :
    Nat.min 3 (Nat.min components channels) = 3 -> entries * channels <= List.length data ->
    exists t, writeCSP1D lo hi data entries channels components = Ok t /\
      readCSP t = Ok [rangeNode "prelut_range" (viaFixed 6 lo) (viaFixed 6 hi);
                      lut1dNode "lut1d" "linear" entries 3 (map (viaFixed 6) (firstOfRows entries channels 3 data))].
  Proof.
    intros K L. eexists. split; [apply write1D_text; [exact L|lia]|]. rewrite K. rewrite head_read; [|now left|discriminate|apply rows1D_lines].
    set (rows := map (shownRow 3 channels data) (seq 0 entries)). assert (Lr : List.length rows = entries) by (unfold rows; now rewrite map_length, seq_length).
    rewrite <- Lr at 1. rewrite rows1D_placed; [cbn [bind]; rewrite Lr; reflexivity|]. apply Forall_forall. intros r Hr. apply in_map_iff in Hr as (i & <- & Hi). apply in_seq in Hi.
    unfold shownRow. cbn [Nat.eqb]. rewrite firstn_length, skipn_length. assert (i * channels + channels <= entries * channels) by nia. lia.
  Qed.
  Theorem csp1d_one (lo hi : T) data entries channels components :
    Nat.min 3 (Nat.min components channels) = 1 -> entries * channels <= List.length data ->
    exists t, writeCSP1D lo hi data entries channels components = Ok t /\
      readCSP t = Ok [rangeNode "prelut_range" (viaFixed 6 lo) (viaFixed 6 hi);
                      lut1dNode "lut1d" "linear" entries 3 (flat_map (fun x => repeat (viaFixed 6 x) 3) (firstOfRows entries channels 1 data))].
  Proof.
    intros K L. eexists. split; [apply write1D_text; [exact L|lia]|]. rewrite K. rewrite head_read; [|now left|discriminate|apply rows1D_lines].
    set (rows := map (shownRow 1 channels data) (seq 0 entries)). assert (Lr : List.length rows = entries) by (unfold rows; now rewrite map_length, seq_length).
    rewrite <- Lr at 1. rewrite rows1D_placed.
    - cbn [bind]. rewrite Lr. do 4 f_equal. unfold rows, firstOfRows. rewrite concat_map, map_map, flat_map_concat_map.
      rewrite concat_map, map_map.
      assert (G : forall l, (forall i, In i l -> i * channels < List.length data) ->
        List.concat (map (fun x => map (viaFixed 6) (shownRow 1 channels data x)) l) =
        List.concat (List.concat (map (fun x => map (fun x0 => repeat (viaFixed 6 x0) 3) (firstn 1 (skipn (x * channels) data))) l))).
      { induction l as [|i l IH]; intro H; [reflexivity|]. cbn [map List.concat]. rewrite concat_app. f_equal; [|apply IH; intros; apply H; now right].
        specialize (H i (or_introl eq_refl)). unfold shownRow. cbn [Nat.eqb].
        destruct (skipn (i * channels) data) as [|x l'] eqn:Es.
        - apply (f_equal (@List.length T)) in Es. rewrite skipn_length in Es. cbn in Es. lia.
        - cbn [firstn map List.concat]. rewrite app_nil_r. apply (f_equal (fun l => nth_error l 0)) in Es. rewrite nth_skipn, Nat.add_0_r in Es.
          apply nth_error_nth with (d := n0) in Es. rewrite Es. reflexivity. }
      apply G. intros i Hi. apply in_seq in Hi. nia.
    - apply Forall_forall. intros r Hr. apply in_map_iff in Hr as (i & <- & Hi). unfold shownRow. apply repeat_length.
  Qed.
End Csp.
