(** .csp files with an input shaper. *)
From Coq Require Import List Arith Lia ZArith String Ascii Bool.
From Verif Require Import PBase PFacts PRegistry PNumText PLutText PInverse2 PGrid PXmlArray PSpi PSpi3 PCsp PCsp2 PCsp3 SpecPrelut.
Import ListNotations.
Local Open Scope string_scope.
Local Open Scope list_scope.

Section Csp4.
  Context {T : Type} {NM : Num T} {X : NumText T} {OK : TextOk T}.

  Definition trail (vs : list T) : string := String.concat "" (map (fun v => (v ++ " ")%string) (map fmtF vs)).
  Lemma fmts_words (vs : list T) : Forall word (map fmtF vs).
  Proof. apply Forall_forall. intros w Hw. apply in_map_iff in Hw as (x & <- & _). apply fmtF_word. Qed.
  Lemma trail_reads (vs : list T) : mapM parseFloat (MNumText.split (trail vs)) = Ok (map (viaFixed 6) vs).
  Proof. unfold trail. rewrite split_trail by apply fmts_words. apply fmts_parse. Qed.
  Lemma trail_line (vs : list T) : oneLine (trail vs).
  Proof.
    apply oneLine_concat. apply Forall_forall. intros w Hw. apply in_map_iff in Hw as (x & <- & Hx).
    apply oneLine_app; [|now repeat constructor]. apply oneLine_word. pose proof (fmts_words vs) as F. rewrite Forall_forall in F. now apply F.
  Qed.

  Lemma maps_text samples n (lo hi : T) data r0 r1 r2 : neqb (nofZ (Z.of_nat n - 1)) n0 = false -> n * 3 <= List.length samples ->
    writeCSP1D3D (Some samples) n lo hi data r0 r1 r2 =
    (let* rows := cspRows data r0 r1 r2 in
     Ok (lines (["CSPLUTV100"; "3D"; ""; "BEGIN METADATA"; "END METADATA"; ""] ++
                [natText n; trail (shaperInputs n lo hi); trail (shaperOutputs n samples 0);
                 natText n; trail (shaperInputs n lo hi); trail (shaperOutputs n samples 1);
                 natText n; trail (shaperInputs n lo hi); trail (shaperOutputs n samples 2)] ++
                [""; join " " (map natText [r0; r1; r2])] ++ rows))).
  Proof.
    intros Hz Ls. unfold writeCSP1D3D.
    rewrite (mapM_Ok _ (fun c => [natText n; trail (shaperInputs n lo hi); trail (shaperOutputs n samples c)])); [reflexivity|].
    intros c Hc. apply in_seq in Hc.
    rewrite (mapM_Ok _ (fun s => (fmtF (nadd (nmul (ndiv (nofZ (Z.of_nat s)) (nofZ (Z.of_nat n - 1))) (nsub hi lo)) lo) ++ " ")%string)).
    2:{ intros s _. unfold pyfdiv. rewrite Hz. reflexivity. }
    cbn [bind]. rewrite (mapM_Ok _ (fun s => (fmtF (nth (s * 3 + c) samples n0) ++ " ")%string)).
    2:{ intros s Hs. apply in_seq in Hs. destruct (getn_lt samples (s * 3 + c)) as [x E]; [lia|]. rewrite E. cbn [bind].
        apply getn_some, nth_error_nth with (d := n0) in E. now rewrite E. }
    cbn [bind]. unfold trail, shaperInputs, shaperOutputs. rewrite !map_map. reflexivity.
  Qed.

  Lemma head_read_shaper n m i0 o0 i1 o1 i2 o2 rows : Forall oneLine rows ->
    readCSP (lines (["CSPLUTV100"; "3D"; ""; "BEGIN METADATA"; "END METADATA"; ""] ++
                [natText n; trail i0; trail o0; natText n; trail i1; trail o1; natText n; trail i2; trail o2] ++
                [""; join " " (map natText [m; m; m])] ++ rows)) =
    (let* lut := cspLut "3D" [m; m; m] rows in
     let* prelut := generateCLFPrelut (map (viaFixed 6) i0, map (viaFixed 6) o0) (map (viaFixed 6) i1, map (viaFixed 6) o1)
                      (map (viaFixed 6) i2, map (viaFixed 6) o2) in
     Ok (prelut ++ [lut] : list (node T))).
  Proof.
    intro Rl. unfold readCSP.
    assert (Nl : oneLine (natText n)) by apply oneLine_word, natText_word.
    rewrite splitLines_all.
    2:{ cbn [app]. repeat match goal with
           | |- Forall _ (trail _ :: _) => constructor; [apply trail_line|]
           | |- Forall _ (natText _ :: _) => constructor; [exact Nl|]
           | |- Forall _ (join _ _ :: _) => constructor; [|exact Rl]
           | |- Forall _ (_ :: _) => constructor; [now repeat constructor|]
           end.
        apply oneLine_join; [now repeat constructor|]. refine (Forall_impl _ _ (nats_word _)). apply oneLine_word. }
    clear Nl. pose proof (parseInt_natText n) as In.
    assert (Sn : String.eqb (rstrip (natText n)) "" = false).
    { apply rstrip_nonempty. rewrite split_word by apply natText_word. discriminate. }
    set (w := natText n) in *. clearbody w.
    set (resLine := join " " (map natText [m; m; m])).
    assert (Sr : MNumText.split resLine = map natText [m; m; m]) by apply split_join, nats_word. clearbody resLine.
    pose proof (trail_reads i0) as T0. pose proof (trail_reads o0) as U0. set (s0 := trail i0) in *. set (u0 := trail o0) in *.
    pose proof (trail_reads i1) as T1. pose proof (trail_reads o1) as U1. set (s1 := trail i1) in *. set (u1 := trail o1) in *.
    pose proof (trail_reads i2) as T2. pose proof (trail_reads o2) as U2. set (s2 := trail i2) in *. set (u2 := trail o2) in *.
    clearbody s0 s1 s2 u0 u1 u2. cbn [app].
    cbn [getn nth_error bind skipn].
    change (MNumText.split "CSPLUTV100") with ["CSPLUTV100"]. cbn [getn nth_error bind]. change (String.eqb "CSPLUTV100" "CSPLUTV100") with true. cbv iota.
    change (MNumText.split "3D") with ["3D"]. cbn [getn nth_error bind].
    change (String.eqb "3D" "1D" || String.eqb "3D" "3D") with true. cbv iota.
    change (afterBegin ("" :: "BEGIN METADATA" :: ?l)) with (Ok l). cbn [bind].
    change (afterEnd ("END METADATA" :: "" :: ?l)) with l.
    cbn [skipBlank]. rewrite Sn. cbn [bind].
    unfold readPrelut. cbn [getn nth_error bind Nat.add]. rewrite In. cbn [bind]. rewrite T0, U0, T1, U1, T2, U2. cbn [bind skipn].
    cbn [skipBlank]. rewrite rstrip_nonempty by (rewrite Sr; discriminate). cbn [bind getn nth_error]. rewrite Sr, parse_nats. cbn [bind].
    unfold cspLut. cbn [getn nth_error bind]. reflexivity.
  Qed.

  Theorem csp_shaper_round_trip samples n (lo hi : T) data m f :
    neqb (nofZ (Z.of_nat n - 1)) n0 = false -> n * 3 <= List.length samples -> latticeOf data m m m f ->
    exists t vals, writeCSP1D3D (Some samples) n lo hi data m m m = Ok t /\
      tableOf vals m m m (fun r g b => map (viaFixed 6) (f r g b)) /\
      readCSP t = (let shaper c := (map (viaFixed 6) (shaperInputs n lo hi), map (viaFixed 6) (shaperOutputs n samples c)) in
                   let* prelut := generateCLFPrelut (shaper 0) (shaper 1) (shaper 2) in
                   Ok (prelut ++ [lut3dNode "lut3d" "trilinear" m m m vals])).
  Proof.
    intros Hz Ls D. rewrite maps_text by assumption. rewrite (cspRows_text _ _ _ _ f D). cbn [bind].
    destruct (rows3D_placed m f) as (vals & E & Tv); [intros; now apply D|]. eexists _, vals. split; [reflexivity|]. split; [exact Tv|].
    rewrite head_read_shaper by apply rows3D_lines. rewrite E. reflexivity.
  Qed.

  Theorem csp_no_shaper n (lo hi : T) data r0 r1 r2 : 0 < n -> neqb (nofZ (Z.of_nat n - 1)) n0 = false ->
    writeCSP1D3D None n lo hi data r0 r1 r2 = Err TypeError.
  Proof.
    intros Hn Hz. unfold writeCSP1D3D. cbn [seq mapM].
    rewrite (mapM_Ok _ (fun s => (fmtF (nadd (nmul (ndiv (nofZ (Z.of_nat s)) (nofZ (Z.of_nat n - 1))) (nsub hi lo)) lo) ++ " ")%string)).
    2:{ intros s _. unfold pyfdiv. rewrite Hz. reflexivity. }
    cbn [bind]. destruct n; [lia|]. reflexivity.
  Qed.
End Csp4.
