(** What clfinfo shows of a list (C80). *)
From Coq Require Import List String ZArith Reals Lia.
From Verif Require Import SpecReal SpecInfo PInfo PInfoValues PInfoComments PIeee MBuild Thm_Write.
Import ListNotations.
Local Open Scope string_scope.
Local Open Scope list_scope.

(** Printing runs through exactly when every array has rows of some length and finite
    integers in the rows shown, every long index map is as long on both sides, and the
    channels of Gamma and Log nodes are R, G and B. *)
Theorem C80_succeeds :
  forall (T : Type) (NM : Num T) (X : NumText T) (l : plist T),
    snd (showList l) = None <-> Forall canShowNode (nodesOf l).
Proof. exact @list_fine. Qed.
Print Assumptions C80_succeeds.

(** Then every node is named, those in Groups and referenced lists too, in order. *)
Theorem C80_types :
  forall (T : Type) (NM : Num T) (X : NumText T) (l : plist T),
    snd (showList l) = None -> typesShown (fst (showList l)) = map (fun n => nodeTag (nbody n)) (nodesOf l).
Proof. exact @list_types. Qed.
Print Assumptions C80_types.

(** … with all its attributes, limits and dynamic parameters. *)
Theorem C80_blocks :
  forall (T : Type) (NM : Num T) (X : NumText T) (l : plist T),
    snd (showList l) = None ->
    forall n, In n (nodesOf l) -> exists before after, fst (showList l) = before ++ nodeLines n ++ after.
Proof. exact @list_block. Qed.
Print Assumptions C80_blocks.

(** Of a table up to ten rows are shown in full, otherwise the first and last three. *)
Theorem C80_table :
  forall (T : Type) (NM : Num T) (X : NumText T) (a : array T) k,
    rowLength (a_dims a) = Some k -> canShow (EArray a) ->
    showArray a = ([LCaption "Array"; LDimensions (a_dims a); LCaption "Values"] ++ tableLines a k, None).
Proof. exact @array_shown. Qed.
Print Assumptions C80_table.

(** Of an index map up to fourteen entries are shown, otherwise the first and last three. *)
Theorem C80_index_map :
  forall (T : Type) (X : NumText T) (m : imap T),
    List.length (im_in m) = List.length (im_out m) ->
    showIMap m = ([LCaption "IndexMap"; LLength (List.length (im_in m)); LCaption "Values"] ++ mapLines m, None).
Proof. exact @imap_shown. Qed.
Print Assumptions C80_index_map.

(** All comments are shown with their kinds, in order. *)
Theorem C80_comments :
  forall (T : Type) (NM : Num T) (X : NumText T) (l : plist T),
    snd (showList l) = None -> commentsShown (fst (showList l)) = listComments l.
Proof. exact @list_comments. Qed.
Print Assumptions C80_comments.

(** A list that can be saved can be shown, if it has no resolved References and its curves
    have known channels. *)
Theorem C80_saved_can_be_shown :
  forall (T : Type) (NM : Num T) (X : NumText T) c (l : plist T),
    is_ok (listWrite c false l) -> Forall curvesKnown (nodesOf l) -> Forall unresolved (nodesOf l) ->
    snd (showList l) = None.
Proof. exact @saved_shown. Qed.
Print Assumptions C80_saved_can_be_shown.

(** Of a CDL exactly the parameters it has are shown … *)
Theorem C80_cdl :
  forall (T : Type) (NM : Num T) (X : NumText T) (h : header T) (v : cdl T) b k xs,
    b = BCDL v \/ b = BColorCorrection v -> Forall canShow (h_elems h) ->
    (In (k, xs) (valuesShown (fst (showNode (Node h b)))) <->
     k = "slope" /\ c_slope v = Some xs \/ k = "offset" /\ c_offset v = Some xs \/ k = "power" /\ c_power v = Some xs \/
     k = "saturation" /\ exists x, xs = [x] /\ c_sat v = Some x).
Proof. exact @cdl_shown. Qed.
Print Assumptions C80_cdl.

(** … and of Gamma and Log nodes the parameters in force for each channel, which are those
    the curves of C37 to C40 use. *)
Theorem C80_gamma :
  forall (X : NumText R) h ps style dIn dOut gamma offset,
    isGamma h ps style dIn dOut gamma offset -> Forall canShow (h_elems h) ->
    valuesShown (fst (showNode (Node h (BGamma ps)))) = [("gamma", three gamma); ("offset", three offset)].
Proof. exact @gamma_shown. Qed.
Print Assumptions C80_gamma.
Theorem C80_log :
  forall (X : NumText R) h ps style dIn dOut s,
    isLog h ps style dIn dOut s -> Forall canShow (h_elems h) ->
    valuesShown (fst (showNode (Node h (BLog ps)))) =
      [("gamma", three (lsGamma s)); ("ref white", three (lsWhite s)); ("ref black", three (lsBlack s));
       ("highlight", three (lsHigh s)); ("shadow", three (lsShadow s))].
Proof. exact @log_shown. Qed.
Print Assumptions C80_log.
Example C80_parameters_case :
  forall (X : NumText R), let h := {| h_attrs := [("inBitDepth", AStr "16f"); ("outBitDepth", AStr "16f"); ("style", AStr "moncurveFwd")]; h_vals := []; h_dyn := []; h_elems := [] |} in
  let ps := [{| g_chan := None; g_gamma := 2%R; g_offset := 0%R |}; {| g_chan := Some "G"; g_gamma := 3%R; g_offset := 1%R |}] in
  isGamma h ps "moncurveFwd" (AStr "16f") (AStr "16f") (fun ch => if Nat.eqb ch 1 then 3%R else 2%R) (fun ch => if Nat.eqb ch 1 then 1%R else 0%R) /\ Forall canShow (h_elems h) /\
  isLog h [] "moncurveFwd" (AStr "16f") (AStr "16f") {| lsGamma := fun _ => (6 / 10)%R; lsWhite := fun _ => 685%R; lsBlack := fun _ => 95%R; lsHigh := fun _ => 1%R; lsShadow := fun _ => 0%R |}.
Proof.
  intros X h ps. split; [|split; [constructor|]].
  - repeat split; try reflexivity; [repeat constructor; cbn; tauto| |]; destruct ch as [|[|[|ch]]]; try reflexivity; lia.
  - repeat split; try reflexivity. constructor.
Qed.

(** Of an ExposureContrast node the exposure is shown twice … *)
Theorem C80_contrast_shown :
  forall (T : Type) (NM : Num T) (X : NumText T) (h : header T) (x c p : T),
    Forall canShow (h_elems h) ->
    exists before, fst (showNode (Node h (BExposureContrast {| e_exposure := x; e_contrast := c; e_pivot := p |}))) =
      before ++ [LValue "exposure" [x]; LValue "contrast" [x]; LValue "pivot" [p]; LCaption ""].
Proof. exact @contrast_shown. Qed.
Print Assumptions C80_contrast_shown.

(** … so that its contrast is not shown at all. *)
Theorem C80_contrast_refuted :
  forall (T : Type) (NM : Num T) (X : NumText T) (x c p : T), c <> x ->
    exists n, nbody n = BExposureContrast {| e_exposure := x; e_contrast := c; e_pivot := p |} /\
      snd (showNode n) = None /\ ~ In (LValue "contrast" [c]) (fst (showNode n)).
Proof. exact @contrast_lost. Qed.
Print Assumptions C80_contrast_refuted.

(** Twelve rows of one value. *)
Definition shownTable (L : libm) : array fl :=
  {| a_dims := [12; 1]%nat; a_vals := map (fun z => @nofZ fl (ieeeNum L) z) [0; 1; 2; 3; 4; 5; 6; 7; 8; 9; 10; 11]%Z;
     a_dt := DtF32; a_raw := false; a_int := true; a_enc := "string" |}.
Definition rowsOf {T} (ls : list (line T)) : list (list string) :=
  flat_map (fun l => match l with LRow ws => [ws] | LDots => [["..."]] | _ => [] end) ls.
Example C80_case (L : libm) : let N := ieeeNum L in
  let f := AStr "16f" in
  let inner := PList [("id", "inner")] [] [] [addElement (newLUT1D f (AStr "10i") (AStr "t") (AStr "") (AStr "linear") (AStr "") (AStr "")) (EArray (shownTable L))] in
  let l := richList L inner in
  snd (showList l) = None /\
  typesShown (fst (showList l)) = ["Range"; "Matrix"; "Reference"; "LUT1D"; "Group"; "ASC_CDL"] /\
  rowsOf (fst (showList l)) = [["0.500000000"; "0.250000000"; "0.125000000"];
                               ["0"]; ["1"]; ["2"]; ["..."]; ["9"]; ["10"]; ["11"]].
Proof. vm_compute. repeat split. Qed.
Example C80_saved_case (L : libm) : let N := ieeeNum L in
  let f := AStr "16f" in
  let l := PList [("id", "one")] [] [] [addElement (newLUT1D f (AStr "10i") (AStr "t") (AStr "") (AStr "linear") (AStr "") (AStr "")) (EArray (shownTable L))] in
  is_ok (listWrite 15 false l) /\ Forall curvesKnown (nodesOf l) /\ Forall unresolved (nodesOf l).
Proof.
  split; [eexists; vm_compute; reflexivity|]. split; (constructor; [|constructor]); [exact Logic.I|]. intros w p. discriminate.
Qed.
Example C80_comments_case (L : libm) : let N := ieeeNum L in
  let f := AStr "16f" in
  let m := {| im_dim := Some 20; im_in := map (fun z => @nofZ fl N z) (map Z.of_nat (seq 0 20)); im_out := map (fun z => @nofZ fl N z) (map Z.of_nat (seq 0 20)) |} in
  let inner := PList [("id", "inner")] [] [PEComment "OutputDescriptor" (Some "video")]
     [addElement (addElement (newLUT1D f (AStr "10i") (AStr "t") (AStr "") (AStr "linear") (AStr "") (AStr "")) (EDesc (Some "a table"))) (EIndexMap m)] in
  let l := PList [("id", "outer")] [] [PEComment "Description" (Some "all of it"); PEInfo [("Copyright", Some "none"); ("Revision", Some "2")]]
     [Node {| h_attrs := []; h_vals := []; h_dyn := []; h_elems := [EDesc (Some "elsewhere")] |} (BReference true (Some inner))] in
  List.length (im_in m) = List.length (im_out m) /\ snd (showList l) = None /\ commentsShown (fst (showList l)) = [("Description", Some "all of it"); ("Copyright", Some "none"); ("Revision", Some "2");
    ("Description", Some "elsewhere"); ("OutputDescriptor", Some "video"); ("Description", Some "a table")] /\ rowsOf (fst (showList l)) = [["0.000000000"; "0.000000000"]; ["1.000000000"; "1.000000000"]; ["2.000000000"; "2.000000000"]; ["..."];
    ["17.000000000"; "17.000000000"]; ["18.000000000"; "18.000000000"]; ["19.000000000"; "19.000000000"]].
Proof. vm_compute. repeat split. Qed.
