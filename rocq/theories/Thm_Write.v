(** Writing a process list and reading it back (C45), self-contained writing (C51). *)
From Coq Require Import Reals.
From Flocq Require Import Core BinarySingleNaN.
From Verif Require Import SpecWrite PTextSig PTextIeee PXmlIeee PXmlWrite PXmlInline PWriteCase PIeee PList MBuild Thm_Read.
Local Open Scope string_scope.
Local Open Scope list_scope.

(** * C45 *)

(** Reading what a list was written as, strictly or leniently, gives the list with
    the numbers as their text keeps them. *)
Theorem C45_round_trip :
  forall (L : libm), let N := ieeeNum L in
  forall c c' load strict (l : plist fl) root,
    autodesk_on c' = true -> duiker_on c' = true -> storableList load l ->
    listWrite c false l = Ok root ->
    listRead c' load strict emptyList root = Ok (keptList l).
Proof. exact (fun L => @list_back fl (ieeeNum L) ieeeText (ieeeOk L)). Qed.
Print Assumptions C45_round_trip.

(** A list can be written exactly when each of its tables and index maps can. *)
Theorem C45_writable :
  forall (L : libm), let N := ieeeNum L in
  forall c (l : plist fl),
    is_ok (listWrite c false l) <-> Forall (elementsInside (fun e => is_ok (elementWrite c e))) (procs_of l).
Proof. exact (fun L => @list_writes fl (ieeeNum L) ieeeText). Qed.
Print Assumptions C45_writable.

(** What the text keeps of a table value, of a parameter or limit, and of an index. *)
Theorem C45_numbers :
  forall (L : libm), let N := ieeeNum L in
  forall x : fl,
    (forall raw enc, arrayKeeps raw enc x (viaArray raw enc x)) /\
    throughDigits x (viaStr x) /\
    (is_finite x = true -> is_finite (viaInt x) = true /\ B2R (viaInt x) = IZR (Ztrunc (B2R x))).
Proof.
  exact (fun L x => conj (fun raw enc => eq_ind _ (arrayKeeps raw enc x) (keeps_ieee L raw enc x) _ (@keepValue_via fl (ieeeNum L) ieeeText raw enc x))
                         (conj (digits_kept x) (int_kept L x))).
Qed.
Print Assumptions C45_numbers.

(** When the text keeps all numbers exactly, and the tables of Matrix nodes and
    half-domain LUT1D nodes are arrays like those reading makes, the list read
    processes identically. *)
Theorem C45_processing :
  forall (L : libm), let N := ieeeNum L in
  forall c (l : plist fl) values st,
    Forall exactNode (procs_of l) -> listProcess c (keptList l) values st = listProcess c l values st.
Proof. exact (fun L => @kept_list_processes fl (ieeeNum L) ieeeText). Qed.
Print Assumptions C45_processing.

Ltac distinct := repeat constructor; cbn; intuition discriminate.
Ltac plain := split; [distinct|split; [eexists; reflexivity|repeat (apply Forall_cons || apply Forall_nil); cbn; try exact Logic.I; split; discriminate]].

(** A list with every kind of structure: attributes, descriptions, an Info block, a
    Range with four limits, a Matrix, a Reference and a Group with a CDL. *)
Definition richList (L : libm) (inner : plist fl) : plist fl :=
  let N := ieeeNum L in
  let q a b := @nlit fl N a b in
  let f32 := AStr "32f" in
  PList [("id", "look"); ("compCLFversion", "1.2")] []
    [PEComment "Description" (Some "a look"); PEInfo [("Copyright", Some "someone"); ("Release", Some "2")]]
    [addElement (setMaxOutValue (setMinOutValue (setMaxInValue (setMinInValue (newRange f32 f32 (AStr "r") (AStr "") (AStr "noClamp") ANone)
       (q 0 1)) (q 1 1)) (q 1 4)) (q 3 4)) (EDesc (Some "to video"));
     setMatrix (newMatrix f32 f32 (AStr "m") (AStr "")) [1; 3]%nat [q 1 2; q 1 4; q 1 8] "string";
     Node (hSetAttr (newHeader f32 f32 (AStr "x") (AStr "")) "path" (AStr "/inner.clf")) (BReference true (Some inner));
     Node (hAddElem (hSetAttr (newHeader f32 f32 (AStr "g") (AStr "")) "bypass" (ABool true)) (EMisc (PEComment "Comment" (Some "off"))))
       (BGroup [setSlope (newASCCDL f32 f32 (AStr "c") (AStr "") (AStr "Fwd")) (q 1 1) (q 11 10) (q 9 10)])]%Z.
Lemma rich_storable (L : libm) (inner : plist fl) load : load "/inner.clf" = Ok (Some inner) -> storableList load (richList L inner).
Proof.
  intro Hl. unfold richList. cbn [storableList]. split; [distinct|]. split; [reflexivity|].
  split; [repeat (apply Forall_cons || apply Forall_nil); cbn; auto; repeat (apply Forall_cons || apply Forall_nil); cbn; auto|].
  apply Forall_cons; [|apply Forall_cons; [|apply Forall_cons; [|apply Forall_cons; [|apply Forall_nil]]]].
  - split; [|exact Logic.I]. split; [plain|]. split.
    + cbn -[nlit]. split; [distinct|]. repeat (apply Forall_cons || apply Forall_nil); cbn -[nlit]; auto.
    + repeat constructor.
  - split; [|exact Logic.I]. split; [plain|]. split; repeat constructor.
  - split; [split; [plain|split; constructor]|]. exists "/inner.clf". split; [reflexivity|exact Hl].
  - split; [|split; [|exact Logic.I]].
    + split; [plain|]. split; [reflexivity|]. constructor; [|constructor]. split; [eexists; reflexivity|now left].
    + split; [|exact Logic.I]. split; [plain|]. split; constructor.
Qed.
Example C45_case (L : libm) (inner : plist fl) : let N := ieeeNum L in
  let l := richList L inner in
  let load := fun p => if String.eqb p "/inner.clf" then Ok (Some inner) else Err IOError in
  storableList load l /\
  exists root, listWrite 15 false l = Ok root /\
    map x_tag (x_children root) = ["Description"; "Info"; "Range"; "Matrix"; "Reference"; "Group"] /\
    listRead 15 load true emptyList root = Ok (keptList l).
Proof.
  assert (W : exists root, @listWrite fl (ieeeNum L) ieeeText 15 false (richList L inner) = Ok root /\
                           map x_tag (x_children root) = ["Description"; "Info"; "Range"; "Matrix"; "Reference"; "Group"]).
  { eexists. split; [vm_compute; reflexivity|reflexivity]. }
  intros N l load.
  assert (S : storableList load l) by (now apply rich_storable).
  split; [exact S|].
  destruct W as (root & W & Tags). exists root. split; [exact W|]. split; [exact Tags|]. now apply (C45_round_trip L 15 15 load true l root).
Qed.

(** The conditions of [C45_processing] are needed: a freshly built Matrix whose
    entries the text keeps exactly gives other pixels after the round trip. Its
    products are computed in double precision before and in single after. *)
Theorem C45_matrix_refuted :
  forall (L : libm), let N := ieeeNum L in
  exists (n : node fl) pixel root l',
    (exists h, n = Node h BMatrix) /\ elementsInside exactElement n /\
    listWrite 15 false (PList [] [] [] [n]) = Ok root /\
    listRead 15 (fun _ => Ok None) true emptyList root = Ok l' /\
    outcome (listProcess 15 l' pixel 3) <> outcome (listProcess 15 (PList [] [] [] [n]) pixel 3).
Proof. exact last_bit. Qed.
Print Assumptions C45_matrix_refuted.

(** * C51 *)

(** Self-contained writing is plain writing of the list with each top-level
    Reference replaced by the nodes it refers to. *)
Theorem C51_self_contained :
  forall {T} {N : Num T} {X : NumText T} c (l : plist T),
    Forall inlinable (procs_of l) -> listWrite c true l = listWrite c false (inlineList l).
Proof. exact @self_contained. Qed.
Print Assumptions C51_self_contained.

(** That list gives the same colours or the same exception, provided no bypass
    attribute is around. *)
Theorem C51_processes_the_same :
  forall (L : libm), let N := ieeeNum L in
  forall c (l : plist fl) values st,
    autodesk_on c = false \/ Forall (fun n => ~ hasBypass n) (procs_of l ++ procs_of (inlineList l)) ->
    outcome (listProcess c (inlineList l) values st) = outcome (listProcess c l values st).
Proof. exact (fun L => @inline_same fl (ieeeNum L) (ieee_f32 L)). Qed.
Print Assumptions C51_processes_the_same.

(** An unresolved Reference makes it fail. *)
Theorem C51_unresolved :
  forall {T} {N : Num T} {X : NumText T} c attrs vals elems A (h : header T) w B,
    let written := listWrite c true (PList attrs vals elems (A ++ Node h (BReference w None) :: B)) in
    (exists e, written = Err e) /\ (is_ok (listWrite c true (PList attrs vals elems A)) -> written = Err AttributeError).
Proof. exact @unresolved_fails. Qed.
Print Assumptions C51_unresolved.

(** A Reference inside a Group stays a Reference, however the Group is written. *)
Theorem C51_grouped_reference :
  forall {T} {N : Num T} {X : NumText T} c flag (h : header T) A hr w pl B es,
    nodeWrite c flag (Node h (BGroup (A ++ Node hr (BReference w pl) :: B))) = Ok es ->
    exists g r, es = [g] /\ In r (x_children g) /\ x_tag r = "Reference" /\
      x_attrib r = map (fun kv => (fst kv, avalText (snd kv))) (h_attrs hr).
Proof. exact @grouped_reference. Qed.
Print Assumptions C51_grouped_reference.

Example C51_case (L : libm) : let N := ieeeNum L in
  let f32 := AStr "32f" in
  let r1 := newRange f32 f32 (AStr "a") (AStr "") (AStr "") ANone in
  let r2 := newRange f32 f32 (AStr "b") (AStr "") (AStr "") ANone in
  let link h w pl := Node (hSetAttr (newHeader f32 f32 (AStr h) (AStr "")) "path" (AStr "/x.clf")) (BReference w pl) in
  let inner := PList [] [] [] [r1; link "deep" false None; r2] in
  let group := Node (newHeader f32 f32 (AStr "g") (AStr "")) (BGroup [link "grouped" false (Some inner)]) in
  let l := PList [] [] [] [r1; link "top" false (Some inner); group] in
  Forall inlinable (procs_of l) /\
  Forall (fun n => ~ hasBypass n) (procs_of l ++ procs_of (inlineList l)) /\
  (exists root, listWrite 15 true l = Ok root /\ map x_tag (x_children root) = ["Range"; "Range"; "Reference"; "Range"; "Group"]) /\
  (exists root, listWrite 15 false l = Ok root /\ map x_tag (x_children root) = ["Range"; "Reference"; "Group"]) /\
  listWrite 15 true inner = Err AttributeError.
Proof.
  split.
  { repeat constructor; intros h w pl E; try discriminate. injection E as _ _ <-. eexists. split; [reflexivity|].
    repeat constructor; intros h' w' pl' E; try discriminate. now injection E. }
  split.
  { repeat constructor; intros (v & E & _); discriminate. }
  repeat split; try (eexists; split; [vm_compute; reflexivity|reflexivity]).
Qed.
