(** What the elements of a document say (C95). *)
From Coq Require Import List String Ascii ZArith NArith Permutation.
From Flocq Require Import BinarySingleNaN.
From Verif Require PConvertIeee.
From Verif Require Import NumF SpecWritten SpecSpelling PNumText PWritten PReordered.
Import ListNotations.
Local Open Scope string_scope.
Local Open Scope list_scope.

(** * C95 *)

(** A node read from an element has the attributes of the element and, for the others, the
    defaults of its class, whatever children the element has. *)
Theorem C95_attributes :
  forall {T} {N : Num T} {X : NumText T} c (load : string -> res (option (plist T))) strict e n,
    NoDup (map fst (x_attrib e)) -> readItem c load strict e = Ok (INode n) ->
    (forall k s, In (k, s) (x_attrib e) -> exists v, valueWritten s v /\ dget (h_attrs (nheader n)) k = Some v) /\
    (forall k, ~ In k (map fst (x_attrib e)) -> dget (h_attrs (nheader n)) k = option_map AStr (dget (defaultsOf (elementType (x_tag e))) k)).
Proof. exact @attributes_read. Qed.
Print Assumptions C95_attributes.

(** The limits of a Range are the numbers in the children of that name, in any order among
    other children; the last one counts. *)
Theorem C95_limits :
  forall {T} {N : Num T} {X : NumText T} c (load : string -> res (option (plist T))) strict e n,
    elementType (x_tag e) = "Range" -> readItem c load strict e = Ok (INode n) ->
    exists h, n = Node h BRange /\ forall k, In k limitNames -> numberWritten (childTexts k (x_children e)) (dget (h_vals h) k).
Proof. exact @limits_read. Qed.
Print Assumptions C95_limits.

(** The parameters of curves, with their defaults: Gamma and Log nodes keep all of them in
    order, an ExposureContrast node the last. *)
Theorem C95_parameters :
  forall {T} {N : Num T} {X : NumText T} c (load : string -> res (option (plist T))) strict e n,
    readItem c load strict e = Ok (INode n) ->
    (elementType (x_tag e) = "Gamma" -> exists h ps, n = Node h (BGamma ps) /\ Forall2 gammaSaid (childAttributes "GammaParams" (x_children e)) ps) /\
    (elementType (x_tag e) = "Log" -> exists h ps, n = Node h (BLog ps) /\ Forall2 logSaid (childAttributes "LogParams" (x_children e)) ps) /\
    (elementType (x_tag e) = "ExposureContrast" -> exists h p, n = Node h (BExposureContrast p) /\
       exposureSaid (match lastOne (childAttributes "ECParams" (x_children e)) with Some attrs => attrs | None => [] end) p).
Proof. exact @parameters_read. Qed.
Print Assumptions C95_parameters.

(** The numbers of an ASC CDL node and of a ColorCorrection. *)
Theorem C95_cdl :
  forall {T} {N : Num T} {X : NumText T} c (load : string -> res (option (plist T))) strict e n,
    readItem c load strict e = Ok (INode n) ->
    (elementType (x_tag e) = "ASCCDL" -> exists h v, n = Node h (BCDL v) /\ cdlSaid (x_children e) v) /\
    (elementType (x_tag e) = "ColorCorrection" -> exists h v, n = Node h (BColorCorrection v) /\ cdlSaid (x_children e) v).
Proof. exact @cdl_read. Qed.
Print Assumptions C95_cdl.

(** The tables and index maps of Matrix, LUT1D and LUT3D nodes, in the order of the children. *)
Theorem C95_tables :
  forall {T} {N : Num T} {X : NumText T} c (load : string -> res (option (plist T))) strict e n,
    readItem c load strict e = Ok (INode n) -> NoDup (map fst (x_attrib e)) -> ~ In "rawHalfs" (map fst (x_attrib e)) ->
    let ty := elementType (x_tag e) in
    (ty = "Matrix" \/ ty = "LUT1D" \/ ty = "LUT3D" -> Forall2 arraySaid (childrenOf "Array" (x_children e)) (arraysIn (nheader n))) /\
    (ty = "LUT1D" \/ ty = "LUT3D" -> Forall2 imapSaid (childrenOf "IndexMap" (x_children e)) (imapsIn (nheader n))).
Proof. exact @tables_read. Qed.
Print Assumptions C95_tables.

(** The order of attributes is of no importance anywhere in a document: what is read computes
    the same colours, or reading fails with the same exception. *)
Theorem C95_order :
  forall {T} {N : Num T} {X : NumText T} c (load : string -> res (option (plist T))) strict (l0 : plist T) e e',
    reordered e e' ->
    sameOutcome (fun l l' => sameList l l' /\ forall values st, listProcess c l values st = listProcess c l' values st)
      (listRead c load strict l0 e) (listRead c load strict l0 e').
Proof. exact @reordered_colours. Qed.
Print Assumptions C95_order.

(** The same of files. *)
Theorem C95_order_files :
  forall {T} {N : Num T} {X : NumText T} zip unzip limit c (fs : disk string) strict p p' t t' e e',
    fs p = Some t -> fs p' = Some t' -> unzip t = None -> unzip t' = None ->
    documentSpelled e t -> documentSpelled e' t' -> namespacesOk e -> namespacesOk e' -> reordered (bare e) (bare e') ->
    sameOutcome sameList (openList (T := T) (textFiles zip unzip) limit c fs strict p) (openList (textFiles zip unzip) limit c fs strict p').
Proof. exact @reordered_opens. Qed.
Print Assumptions C95_order_files.

Definition tag (t : string) (attrs : list (string * string)) (children : list xelem) : xelem := XElem t attrs None children.
Definition textIn (t s : string) : xelem := XElem t [] (Some s) [].
(** A Range, a Log, a CDL and an ExposureContrast, some of whose settings are left out. *)
Definition writtenRange : xelem :=
  tag "Range" [("inBitDepth", "10i"); ("bypass", "True")] [textIn "maxInValue" "1023"; textIn "Description" "a range"; textIn "minInValue" "0.5"; textIn "minInValue" "64"].
Definition writtenLog : xelem := tag "Log" [] [tag "LogParams" [("refWhite", "700"); ("channel", "R")] []; tag "LogParams" [] []].
Definition writtenCdl : xelem := tag "ASC_CDL" [("id", "x")] [tag "SOPNode" [] [textIn "Offset" "0 0.5 0"]; tag "SatNode" [] [textIn "Saturation" "0.75"]].
Definition writtenExposure : xelem := tag "ExposureContrast" [("style", "video")] [tag "ECParams" [("contrast", "2")] []].

Example C95_case (L : libm) : let N := ieeeNum L in
  let read e := readItem (T := fl) 15 (fun _ => Ok None) true e in
  NoDup (map fst (x_attrib writtenRange)) /\ is_ok (read writtenRange) /\ is_ok (read writtenLog) /\ is_ok (read writtenCdl) /\ is_ok (read writtenExposure) /\
  elementType (x_tag writtenRange) = "Range" /\ elementType (x_tag writtenCdl) = "ASCCDL" /\
  childTexts "minInValue" (x_children writtenRange) = [Some "0.5"; Some "64"] /\
  childTexts "Offset" (inside "sopnode" (x_children writtenCdl)) = [Some "0 0.5 0"] /\
  dget (defaultsOf "ASCCDL") "style" = Some "Fwd" /\
  (exists n, read writtenCdl = Ok (INode n) /\ dget (h_attrs (nheader n)) "style" = Some (AStr "Fwd") /\ dget (h_attrs (nheader n)) "id" = Some (AStr "x")) /\
  (exists h, read writtenRange = Ok (INode (Node h BRange)) /\ (exists v, parseFloat "64" = Ok v /\ dget (h_vals h) "minInValue" = Some v) /\ dget (h_vals h) "minOutValue" = None) /\
  reordered (tag "ProcessList" [] [writtenRange]) (tag "ProcessList" [] [tag "Range" [("bypass", "True"); ("inBitDepth", "10i")] (x_children writtenRange)]).
Proof.
  intros N read.
  assert (D : NoDup (map fst (x_attrib writtenRange))) by (cbn; repeat (constructor; [cbn; intuition discriminate|]); constructor).
  assert (R : is_ok (read writtenRange)) by (apply PConvertIeee.ok_of; vm_compute; reflexivity).
  assert (C : is_ok (read writtenCdl)) by (apply PConvertIeee.ok_of; vm_compute; reflexivity).
  split; [exact D|]. split; [exact R|]. split; [apply PConvertIeee.ok_of; vm_compute; reflexivity|]. split; [exact C|]. split; [apply PConvertIeee.ok_of; vm_compute; reflexivity|].
  do 5 (split; [reflexivity|]). split; [|split].
  - assert (K : exists n, read writtenCdl = Ok (INode n)).
    { apply (node_of _ _ _ _ C); reflexivity. }
    destruct K as [n E]. exists n. split; [exact E|].
    destruct (C95_attributes (T := fl) 15 (fun _ => Ok None) true writtenCdl n) as [A B]; [cbn; constructor; [intros []|constructor]|exact E|]. split.
    + rewrite B; [reflexivity|]. cbn. intuition discriminate.
    + destruct (A "id" "x") as (v & [[H _]|[[H _]|(_ & _ & ->)]] & G); [now left|discriminate|discriminate|exact G].
  - assert (K : exists n, read writtenRange = Ok (INode n)).
    { apply (node_of _ _ _ _ R); reflexivity. }
    destruct K as [n E]. destruct (C95_limits (T := fl) 15 (fun _ => Ok None) true writtenRange n eq_refl E) as (h & -> & V). exists h. split; [exact E|]. split.
    + destruct (V "minInValue") as (s & v & [= <-] & P & Q); [now left|]. eauto.
    + exact (V "minOutValue" (or_intror (or_intror (or_introl eq_refl)))).
  - constructor; [constructor|constructor|]. constructor; [|constructor]. constructor; [exact D|apply perm_swap|]. repeat (constructor; [repeat constructor|]). constructor.
Qed.

Definition writtenLut : xelem :=
  tag "LUT1D" [("name", "curve")] [textIn "IndexMap" "0@0 0.5@1 1@2"; XElem "Array" [("dim", "3 1")] (Some "0 0.25 1") []].
Example C95_tables_case (L : libm) : let N := ieeeNum L in
  exists n, readItem (T := fl) 15 (fun _ => Ok None) true writtenLut = Ok (INode n) /\ NoDup (map fst (x_attrib writtenLut)) /\ ~ In "rawHalfs" (map fst (x_attrib writtenLut)) /\
    (exists a, arraysIn (nheader n) = [a] /\ a_dims a = [3; 1]%nat /\ List.length (a_vals a) = 3%nat) /\
    (exists m, imapsIn (nheader n) = [m] /\ List.length (im_in m) = 3%nat) /\
    dget (h_attrs (nheader n)) "interpolation" = Some (AStr "linear").
Proof.
  intro N. assert (R : is_ok (readItem (T := fl) 15 (fun _ => Ok None) true writtenLut)) by (apply PConvertIeee.ok_of; vm_compute; reflexivity).
  destruct (node_of _ _ _ _ R eq_refl eq_refl) as [n E]. exists n. split; [exact E|].
  assert (D : NoDup (map fst (x_attrib writtenLut))) by (cbn; repeat (constructor; [cbn; intuition discriminate|]); constructor).
  assert (Raw : ~ In "rawHalfs" (map fst (x_attrib writtenLut))) by (cbn; intuition discriminate).
  destruct (C95_tables (T := fl) 15 (fun _ => Ok None) true writtenLut n E D Raw) as [A I].
  specialize (A (or_intror (or_introl eq_refl))). specialize (I (or_introl eq_refl)).
  split; [exact D|]. split; [exact Raw|]. split; [|split].
  - inversion A as [|? a ? l S Rest E1 E2]; subst. inversion Rest; subst. exists a. split; [reflexivity|]. destruct S as [Ds (s & [= <-] & V)].
    assert (P : mapM parseDim (MNumText.split "3 1") = Ok [3; 1]%nat) by reflexivity. split.
    + cbn in Ds. inversion Ds as [|? x ? l Hx R1]; subst. inversion R1 as [|? y ? l' Hy R2]; subst. inversion R2; subst. injection Hx as Hx. injection Hy as Hy.
      apply (Znat.Nat2Z.inj x 3) in Hx || symmetry in Hx; apply (Znat.Nat2Z.inj x 3) in Hx || idtac. subst. symmetry in Hy. apply (Znat.Nat2Z.inj y 1) in Hy. now subst.
    + symmetry. exact (pairs_length _ _ _ (V (or_introl eq_refl))).
  - inversion I as [|? m ? l S Rest E1 E2]; subst. inversion Rest; subst. exists m. split; [reflexivity|]. destruct S as (_ & s & [= <-] & V & _). symmetry. exact (pairs_length _ _ _ V).
  - destruct (C95_attributes (T := fl) 15 (fun _ => Ok None) true writtenLut n D E) as [_ B]. rewrite B; [reflexivity|]. cbn. intuition discriminate.
Qed.
