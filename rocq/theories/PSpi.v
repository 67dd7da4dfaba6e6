(** Sony .spi1d and .spi3d files: what is written is what is read. *)
From Coq Require Import List Arith Lia ZArith String Ascii Bool.
From Verif Require Import PBase PFacts PRegistry PNumText PLutText PInverse2 SpecLut.
Import ListNotations.
Local Open Scope string_scope.
Local Open Scope list_scope.

Section Spi.
  Context {T : Type} {NM : Num T} {X : NumText T} {OK : TextOk T}.
  Implicit Types data vs : list T.

  (** ** The nodes *)
  Lemma limit_range id (lo hi : T) : limitRange id id lo hi n0 n1 = rangeNode id lo hi.
  Proof. reflexivity. Qed.
  Lemma lut1d_node id interp rows cols vals : cols <> 0 -> List.length vals = rows * cols ->
    setArray1D (newLUT1D (AStr "16f") (AStr "16f") (AStr id) (AStr id) (AStr interp) (AStr "") (AStr "")) cols vals "string" =
    Ok (lut1dNode id interp rows cols vals : node T).
  Proof.
    intros C L. unfold setArray1D, pydiv. destruct cols as [|c]; [contradiction|]. cbn [Nat.eqb bind]. rewrite L, Nat.div_mul by lia.
    unfold lut1dNode, halfHeader, interpolationAttr, newLUT1D, optAttr. change (aval_eqb (AStr interp) (AStr "")) with (String.eqb interp ""). destruct (String.eqb interp ""); reflexivity.
  Qed.
  Lemma lut3d_node id interp r0 r1 r2 vals :
    setArray3D (newLUT3D (AStr "16f") (AStr "16f") (AStr id) (AStr id) (AStr interp)) [r0; r1; r2] vals "string" =
    (lut3dNode id interp r0 r1 r2 vals : node T).
  Proof. unfold setArray3D, lut3dNode, halfHeader, interpolationAttr, newLUT3D, optAttr. change (aval_eqb (AStr interp) (AStr "")) with (String.eqb interp ""). destruct (String.eqb interp ""); reflexivity. Qed.

  (** ** Rows of a table *)
  Lemma row_get data a k : a + k <= List.length data ->
    mapM (fun j => getn data (a + j)) (seq 0 k) = Ok (firstn k (skipn a data)).
  Proof.
    revert a. induction k as [|k IH]; intros a H; [reflexivity|]. rewrite seq_S, mapM_snoc, IH by lia. cbn [bind Nat.add].
    destruct (getn_lt data (a + k)) as [x E]; [lia|]. rewrite E. cbn [bind]. f_equal. apply getn_some in E.
    rewrite <- (firstn_skipn a data) in E. rewrite nth_error_app2 in E by (rewrite firstn_length; lia).
    rewrite firstn_length, Nat.min_l in E by lia. replace (a + k - a) with k in E by lia.
    clear - E. revert E. generalize (skipn a data) as l. induction k as [|k IH]; intros [|y l] E; try discriminate.
    - now inversion E.
    - cbn [firstn app]. now rewrite IH.
  Qed.
  Lemma firstOfRows_length n channels k data : k <= channels -> n * channels <= List.length data ->
    List.length (firstOfRows n channels k data) = n * k.
  Proof.
    intros K H. unfold firstOfRows. rewrite (concat_rows_length k).
    - now rewrite map_length, seq_length.
    - apply Forall_forall. intros r Hr. apply in_map_iff in Hr as (i & <- & Hi). apply in_seq in Hi.
      rewrite firstn_length, skipn_length. nia.
  Qed.
  Lemma firstOfRows_map {U} (f : T -> U) n channels k data : map f (firstOfRows n channels k data) =
    List.concat (map (fun i => map f (firstn k (skipn (i * channels) data))) (seq 0 n)).
  Proof. unfold firstOfRows. rewrite concat_map, map_map. reflexivity. Qed.

  (** Keywords are not numbers. *)
  Lemma not_keyword s (v : T) : parseFloat s = Ok v ->
    String.eqb s "Version" = false /\ String.eqb s "From" = false /\ String.eqb s "Length" = false /\
    String.eqb s "Components" = false /\ String.eqb s "{" = false /\ String.eqb s "}" = false.
  Proof.
    intro H. repeat split; match goal with |- String.eqb s ?k = false => destruct (String.eqb_spec s k) as [->|]; [exfalso|reflexivity] end;
      vm_compute in H; discriminate H.
  Qed.

  Variables (str : T -> string) (kept : T -> T).
  Definition with_samples (d : spiData (T:=T)) (l : list T) : spiData :=
    {| sd_length := sd_length d; sd_components := sd_components d; sd_samples := sd_samples d ++ l; sd_min := sd_min d; sd_max := sd_max d |}.

  Lemma str_word x : printsAs str kept x -> word (str x).
  Proof. intros [W _]. now apply one_word. Qed.
  Lemma strs_words vs : Forall (printsAs str kept) vs -> Forall word (map str vs).
  Proof. induction 1; constructor; [now apply str_word|assumption]. Qed.
  Lemma strs_parse vs : Forall (printsAs str kept) vs -> mapM parseFloat (map str vs) = Ok (map kept vs).
  Proof. intro H. apply mapM_parse. intros x Hx. rewrite Forall_forall in H. now apply H. Qed.

  Definition spiRow vs : string := ("        " ++ String.concat "" (map (fun v => (" " ++ str v)%string) vs))%string.
  Lemma spiRow_split vs : Forall (printsAs str kept) vs -> MNumText.split (spiRow vs) = map str vs.
  Proof.
    intro H. unfold spiRow. rewrite <- (split_row "        " (map str vs) 0); [|now repeat constructor|now apply strs_words].
    do 3 f_equal. rewrite map_map. apply map_ext. intro. reflexivity.
  Qed.
  Lemma spiRow_line vs : Forall (printsAs str kept) vs -> oneLine (spiRow vs).
  Proof.
    intro H. unfold spiRow. apply oneLine_app; [now repeat constructor|]. apply oneLine_concat. apply Forall_forall. intros s Hs.
    apply in_map_iff in Hs as (v & <- & Hv). apply oneLine_app; [now repeat constructor|]. apply oneLine_word, str_word.
    rewrite Forall_forall in H. now apply H.
  Qed.

  Lemma spiRows_read rows rest d : Forall (fun vs => Forall (printsAs str kept) vs /\ vs <> []) rows ->
    spiLines (map spiRow rows ++ rest) d = spiLines rest (with_samples d (map kept (List.concat rows))).
  Proof.
    intro H. revert d. induction H as [|vs rows [Hv Ne] H IH]; intro d.
    - cbn. unfold with_samples. rewrite app_nil_r. now destruct d.
    - cbn [map app]. change (spiLines (spiRow vs :: ?r) d) with
        (let tokens := MNumText.split (spiRow vs) in spiLines (spiRow vs :: r) d). cbn [spiLines]. rewrite spiRow_split by exact Hv.
      destruct vs as [|v vs]; [contradiction|]. inversion Hv as [|? ? [_ Hp] _]; subst.
      replace (getn (map str (v :: vs)) 0) with (Ok (str v)) by reflexivity. cbn [bind].
      destruct (not_keyword _ _ Hp) as (-> & -> & -> & -> & -> & ->). cbn [orb]. rewrite strs_parse by exact Hv. cbn [bind].
      rewrite IH. f_equal. unfold with_samples. cbn. f_equal. rewrite <- app_assoc, map_app. reflexivity.
  Qed.

  (** What the reader collects from a file that was written. *)
  Lemma spi1d_collected (lo hi : T) data entries channels components :
    let k := Nat.min 3 (Nat.min components channels) in
    k <> 0 -> entries * channels <= List.length data ->
    Forall (printsAs str kept) (firstOfRows entries channels k data) ->
    exists t, writeSPI1D str lo hi data entries channels components = Ok t /\
      spiLines (splitLines t) {| sd_length := 0; sd_components := 0; sd_samples := []; sd_min := n0; sd_max := n1 |} =
      Ok {| sd_length := entries; sd_components := k; sd_samples := map kept (firstOfRows entries channels k data);
            sd_min := viaFixed 6 lo; sd_max := viaFixed 6 hi |}.
  Proof.
    intros k K L P. unfold writeSPI1D. fold k. assert (Kc : k <= channels) by lia. clearbody k.
    rewrite (mapM_Ok _ (fun i => spiRow (firstn k (skipn (i * channels) data)))).
    2:{ intros i Hi. apply in_seq in Hi. rewrite row_get by nia. reflexivity. }
    cbn [bind]. eexists. split; [reflexivity|]. rewrite <- (map_map (fun i => firstn k (skipn (i * channels) data)) spiRow).
    set (rows := map (fun i => firstn k (skipn (i * channels) data)) (seq 0 entries)).
    assert (R : Forall (fun vs => Forall (printsAs str kept) vs /\ vs <> []) rows).
    { apply Forall_forall. intros vs Hv. split.
      - apply Forall_forall. intros x Hx. rewrite Forall_forall in P. apply P. unfold firstOfRows. apply in_concat. exists vs. now split.
      - apply in_map_iff in Hv as (i & <- & Hi). apply in_seq in Hi. intro E. apply (f_equal (@List.length T)) in E.
        rewrite firstn_length, skipn_length in E. change (List.length (@nil T)) with 0 in E. assert (i * channels + channels <= entries * channels) by nia. lia. }
    rewrite splitLines_all.
    2:{ apply Forall_app. split; [|apply Forall_app; split].
        - repeat match goal with |- Forall _ (_ :: _) => constructor | |- Forall _ [] => constructor end;
            
            repeat match goal with
                   | |- oneLine (String.append _ _) => apply oneLine_app
                   | |- oneLine (natText _) => apply oneLine_word, natText_word
                   | |- oneLine (fmtF _) => apply oneLine_word, fmtF_word
                   | |- oneLine (String _ _) => solve [repeat constructor]
                   end.
        - apply Forall_forall. intros s Hs. apply in_map_iff in Hs as (vs & <- & Hv). rewrite Forall_forall in R. now apply spiRow_line, R.
        - now repeat constructor. }
    cbn [app].
    assert (E1 : forall d, spiLines (("From " ++ fmtF lo ++ " " ++ fmtF hi)%string :: ("Length " ++ natText entries)%string ::
              ("Components " ++ natText k)%string :: "{" :: map spiRow rows ++ ["}"]) d =
              Ok {| sd_length := entries; sd_components := k; sd_samples := sd_samples d ++ map kept (List.concat rows);
                    sd_min := viaFixed 6 lo; sd_max := viaFixed 6 hi |}).
    { intro d. cbn [spiLines].
      change ("From " ++ fmtF lo ++ " " ++ fmtF hi)%string with ("From" ++ " " ++ fmtF lo ++ " " ++ fmtF hi)%string.
      rewrite (split_three "From" (fmtF lo) (fmtF hi)) by (apply fmtF_word || (split; [discriminate|now repeat constructor])).
      cbn [getn nth_error bind String.eqb Ascii.eqb Bool.eqb]. rewrite !fmtF_parse. cbn [bind].
      change ("Length " ++ natText entries)%string with ("Length" ++ " " ++ natText entries)%string.
      rewrite (split_two "Length" (natText entries)) by (apply natText_word || (split; [discriminate|now repeat constructor])).
      cbn [getn nth_error bind String.eqb Ascii.eqb Bool.eqb]. rewrite !parse_nat. cbn [bind].
      change ("Components " ++ natText k)%string with ("Components" ++ " " ++ natText k)%string.
      rewrite (split_two "Components" (natText k)) by (apply natText_word || (split; [discriminate|now repeat constructor])).
      cbn [getn nth_error bind String.eqb Ascii.eqb Bool.eqb]. rewrite !parse_nat. cbn [bind].
      change (MNumText.split "{") with ["{"]. cbn [getn nth_error bind String.eqb Ascii.eqb Bool.eqb orb].
      rewrite spiRows_read by exact R. reflexivity. }
    set (rest := _ :: _ :: _ :: "{" :: _) in *. 
    change (spiLines ("Version 1" :: rest) ?d) with (spiLines rest d). subst rest. rewrite E1. reflexivity.
  Qed.
  Theorem spi1d_round_trip (lo hi : T) data entries channels components interp im hd :
    let k := Nat.min 3 (Nat.min components channels) in
    k <> 0 -> entries * channels <= List.length data ->
    Forall (printsAs str kept) (firstOfRows entries channels k data) ->
    exists t, writeSPI1D str lo hi data entries channels components = Ok t /\
      readSPI1D t false interp im hd =
      Ok ((if negb (neqb (viaFixed 6 lo) n0) || negb (neqb (viaFixed 6 hi) n1) then [rangeNode "range" (viaFixed 6 lo) (viaFixed 6 hi)] else []) ++
          [lut1dNode "lut1d" interp entries k (map kept (firstOfRows entries channels k data))]).
  Proof.
    intros k K L P. destruct (spi1d_collected lo hi data entries channels components K L P) as (t & W & E). exists t. split; [exact W|].
    unfold readSPI1D. rewrite E. cbn [bind sd_min sd_max sd_samples sd_components]. fold k. assert (Kc : k <= channels) by lia. clearbody k.
    rewrite (lut1d_node _ _ entries) by (exact K || (rewrite map_length; apply firstOfRows_length; assumption)). reflexivity.
  Qed.
  Theorem spi1d_inverse (lo hi : T) data entries channels components :
    let k := Nat.min 3 (Nat.min components channels) in
    k <> 0 -> entries * channels <= List.length data ->
    Forall (printsAs str kept) (firstOfRows entries channels k data) ->
    exists t, writeSPI1D str lo hi data entries channels components = Ok t /\
      let table := map kept (firstOfRows entries channels k data) in
      forall interp hd,
        readSPI1D t true interp true hd = generateLUT1DInverseIndexMap entries k table (viaFixed 6 lo) (viaFixed 6 hi) /\
        readSPI1D t true interp false true = generateLUT1DInverseHalfDomain entries k table (viaFixed 6 lo) (viaFixed 6 hi) true /\
        readSPI1D t true interp false false = generateLUT1DInverseResampled entries k table (viaFixed 6 lo) (viaFixed 6 hi).
  Proof.
    intros k K L P. destruct (spi1d_collected lo hi data entries channels components K L P) as (t & W & E). exists t. split; [exact W|].
    intros table interp hd. unfold readSPI1D. rewrite E. repeat split; reflexivity.
  Qed.
End Spi.
