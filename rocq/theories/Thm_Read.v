(** Reading documents: unknown elements (C46), features (C47), tags (C48). *)
From Verif Require Import NumZ SpecXml PXmlRead.
Local Open Scope string_scope.
Local Open Scope list_scope.

(** Concrete documents: numbers as text are not needed, so any reading of text as
    integers will do. *)
Definition noText : NumText Z :=
  {| tround := fun n => match n with NumDec false m _ => Z.of_N m | NumDec true m _ => (- Z.of_N m)%Z | _ => 0%Z end;
     tfixed := fun k z => NumDec (z <? 0)%Z (Z.abs_N z) (- Z.of_nat k); tsig12 := fun z => NumDec (z <? 0)%Z (Z.abs_N z) 0;
     tbits32 := Z.to_N; tof32 := Z.of_N; tover32 := fun _ => false; tbits64 := Z.to_N; tof64 := Z.of_N |}.
Definition nowhere {T} : string -> res (option (plist T)) := fun _ => Ok None.
Definition el (tag : string) (ch : list xelem) : xelem := XElem tag [] None ch.

(** * C46 *)

Theorem C46_lenient_skips_unknown :
  forall {T} {N : Num T} {X : NumText T} c load (l : plist T) tag attrib x pre e post,
    ~ In (elementType (x_tag e)) knownTypes ->
    listRead c load false l (XElem tag attrib x (pre ++ e :: post)) = listRead c load false l (XElem tag attrib x (pre ++ post)).
Proof. exact @lenient_skips_unknown. Qed.
Print Assumptions C46_lenient_skips_unknown.

(** Strict reading fails with UnknownProcessNodeError when it gets to such an
    element; what comes before it may fail first. *)
Theorem C46_strict_rejects_unknown :
  forall {T} {N : Num T} {X : NumText T} c load (l : plist T) tag attrib x pre e post,
    ~ In (elementType (x_tag e)) knownTypes ->
    listRead c load true l (XElem tag attrib x (pre ++ e :: post)) =
    match listRead c load true l (XElem tag attrib x pre) with
    | Ok _ => Err UnknownProcessNodeError
    | Err w => Err w
    end.
Proof. exact @strict_rejects_unknown. Qed.
Print Assumptions C46_strict_rejects_unknown.

(** A Group skips unknown children in either mode. *)
Theorem C46_group_skips_unknown :
  forall {T} {N : Num T} {X : NumText T} c (load : string -> res (option (plist T))) strict tag attrib x pre e post,
    elementType tag = "Group" -> ~ In (elementType (x_tag e)) ("DynamicParameter" :: knownTypes) ->
    readItem c load strict (XElem tag attrib x (pre ++ e :: post)) = readItem c load strict (XElem tag attrib x (pre ++ post)).
Proof. exact @group_skips_unknown. Qed.
Print Assumptions C46_group_skips_unknown.

Example C46_case : let X := noText in
  let doc := el "ProcessList" [el "Range" []; el "Mystery" []; el "Group" [el "Mystery" []; el "Matrix" []]] in
  ~ In (elementType "Mystery") ("DynamicParameter" :: knownTypes) /\
  (exists n h m, listRead 15 nowhere false (emptyList (T := Z)) doc = Ok (PList [] [] [] [n; Node h (BGroup [m])])) /\
  listRead 15 nowhere true (emptyList (T := Z)) doc = Err UnknownProcessNodeError /\
  is_ok (listRead 15 nowhere true (emptyList (T := Z)) (el "ProcessList" [el "Range" []; el "Group" [el "Mystery" []]])).
Proof.
  split; [cbn; intuition discriminate|]. split; [do 3 eexists; vm_compute; reflexivity|].
  split; [vm_compute; reflexivity|]. eexists. vm_compute. reflexivity.
Qed.

(** * C47 *)

(** Take a document without DynamicParameter that reads strictly when all features
    are on. Under other features it is refused exactly when a child of the root
    needs a missing one; otherwise it gives the same list. The children of
    Groups do not count. *)
Theorem C47_strict_features :
  forall {T} {N : Num T} {X : NumText T} c0 c load (l : plist T) root l',
    autodesk_on c0 = true -> duiker_on c0 = true ->
    mentions "DynamicParameter" root = false -> listRead c0 load true l root = Ok l' ->
    let refused := exists e, In e (x_children root) /\ featureMissing c (elementType (x_tag e)) in
    (refused -> listRead c load true l root = Err UnsupportedExtensionError) /\
    (~ refused -> listRead c load true l root = Ok l').
Proof. exact @strict_features. Qed.
Print Assumptions C47_strict_features.

(** Lenient reading gives the same list, with the same nodes, under any features. *)
Theorem C47_lenient_features :
  forall {T} {N : Num T} {X : NumText T} c c' load (l : plist T) root,
    mentions "DynamicParameter" root = false -> listRead c load false l root = listRead c' load false l root.
Proof. exact @lenient_features. Qed.
Print Assumptions C47_lenient_features.

(** A DynamicParameter needs the Autodesk features: without them lenient reading
    drops it and strict reading fails. *)
Theorem C47_dynamic_dropped :
  forall {T} {N : Num T} {X : NumText T} c (load : string -> res (option (plist T))) tag attrib x pre e post,
    autodesk_on c = false -> elementType (x_tag e) = "DynamicParameter" -> elementType tag <> "Info" ->
    readItem c load false (XElem tag attrib x (pre ++ e :: post)) = readItem c load false (XElem tag attrib x (pre ++ post)).
Proof. exact @dynamic_lenient. Qed.
Print Assumptions C47_dynamic_dropped.

Theorem C47_dynamic_refused :
  forall {T} {N : Num T} {X : NumText T} c (load : string -> res (option (plist T))) tag attrib x pre e post n,
    autodesk_on c = false -> elementType (x_tag e) = "DynamicParameter" ->
    readItem c load true (XElem tag attrib x pre) = Ok (INode n) ->
    readItem c load true (XElem tag attrib x (pre ++ e :: post)) = Err UnsupportedExtensionError.
Proof. exact @dynamic_refused. Qed.
Print Assumptions C47_dynamic_refused.

Example C47_case : let X := noText in
  let doc := el "ProcessList" [el "Range" []; el "Gamma" []] in
  let grouped := el "ProcessList" [el "Group" [el "Gamma" []]] in
  (exists l, listRead 15 nowhere true (emptyList (T := Z)) doc = Ok l) /\
  mentions "DynamicParameter" doc = false /\ featureMissing 2 (elementType "Gamma") /\ ~ featureMissing 2 (elementType "Group") /\
  listRead 2 nowhere true (emptyList (T := Z)) doc = Err UnsupportedExtensionError /\
  (exists n m, listRead 2 nowhere false (emptyList (T := Z)) doc = Ok (PList [] [] [] [n; m])) /\
  is_ok (listRead 2 nowhere true (emptyList (T := Z)) grouped) /\
  readItem (T := Z) 2 nowhere true (el "Gamma" [el "DynamicParameter" []]) = Err UnsupportedExtensionError.
Proof.
  split; [eexists; vm_compute; reflexivity|]. split; [reflexivity|]. split; [left; split; [cbn; auto|reflexivity]|].
  split; [intros [[H _]|[_ H]]; [cbn in H; intuition discriminate|discriminate]|].
  split; [vm_compute; reflexivity|]. split; [do 2 eexists; vm_compute; reflexivity|].
  split; [eexists; vm_compute; reflexivity|]. vm_compute. reflexivity.
Qed.

(** * C48 *)

(** A namespace in braces and the characters '-' and '_' do not count. *)
Theorem C48_namespace_ignored :
  forall ns tag, ~ In "}"%char (list_ascii_of_string ns) -> ~ In "}"%char (list_ascii_of_string tag) ->
    elementType ("{" ++ ns ++ "}" ++ tag)%string = elementType tag.
Proof. exact elementType_ns. Qed.
Print Assumptions C48_namespace_ignored.

Theorem C48_separators_ignored :
  forall a b s, s = "-" \/ s = "_" -> ~ In "}"%char (list_ascii_of_string (a ++ b)) ->
    elementType (a ++ s ++ b)%string = elementType (a ++ b)%string.
Proof. exact elementType_insert. Qed.
Print Assumptions C48_separators_ignored.

Theorem C48_plain_tag_kept :
  forall tag, ~ In "}"%char (list_ascii_of_string tag) -> ~ In "-"%char (list_ascii_of_string tag) ->
    ~ In "_"%char (list_ascii_of_string tag) -> elementType tag = tag.
Proof. exact elementType_plain. Qed.
Print Assumptions C48_plain_tag_kept.

(** Elements whose tags agree in this sense are read alike, at the top level and as
    children of nodes, and so are roots with any tag. *)
Theorem C48_read_alike :
  forall {T} {N : Num T} {X : NumText T} c (load : string -> res (option (plist T))) strict (l : plist T) e e' root root' pre post,
    elementType (x_tag e) = elementType (x_tag e') -> x_attrib e = x_attrib e' -> x_text e = x_text e' -> x_children e = x_children e' ->
    x_attrib root = x_attrib root' -> x_children root = pre ++ e :: post -> x_children root' = pre ++ e' :: post ->
    readItem c load strict e = readItem c load strict e' /\
    listRead c load strict l root = listRead c load strict l root' /\
    forall tag attrib x,
      readItem c load strict (XElem tag attrib x (pre ++ e :: post)) = readItem c load strict (XElem tag attrib x (pre ++ e' :: post)).
Proof. exact @read_alike. Qed.
Print Assumptions C48_read_alike.

Example C48_case :
  elementType "{urn:NATAS:AMPAS:LUT:v2.0}ASC_CDL" = "ASCCDL" /\ elementType "LUT-1D" = "LUT1D" /\ elementType "Matrix" = "Matrix".
Proof. repeat split; vm_compute; reflexivity. Qed.
