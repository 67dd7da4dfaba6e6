(** Building lists in a program, and the data processing does not look at (C85). *)
From Coq Require Import List String ZArith Lia.
From Verif Require Import NumF SpecWrite PXmlWrite MBuild PStableCase PTextIeee SpecDepth SpecMeta PMeta PMetaCase NumZ.
Import ListNotations.
Local Open Scope string_scope.
Local Open Scope list_scope.

(** Lists that differ in names, descriptions, dynamic parameters, other attributes and how
    tables are to be written, at any depth inside Groups and referenced lists, process alike:
    same colours, same failures, same effect on the caller's buffer. *)
Theorem C85_metadata_is_inert :
  forall {T} {N : Num T} c (l l' : plist T) values st,
    alikeLists l l' -> listProcess c l values st = listProcess c l' values st.
Proof. exact @list_alike. Qed.
Print Assumptions C85_metadata_is_inert.

(** The setters of metadata, on any node of a list, and on the list. *)
Theorem C85_metadata_setters :
  forall {T} (l : plist T) front (n : node T) rest a v e, procs_of l = front ++ n :: rest ->
    let with_ n' := PList a v e (front ++ n' :: rest) in
    (forall k x, ~ In k colourAttributes -> alikeLists (with_ (setAttribute n k x)) l) /\
    (forall k x, ~ In k limitNames -> alikeLists (with_ (setValue n k x)) l) /\
    (forall p, alikeLists (with_ (setDynamicParam n p)) l) /\
    (forall t, alikeLists (with_ (addElement n (EDesc t))) l) /\
    (forall k x, alikeLists (listSetAttribute l k x) l) /\
    (forall x, alikeLists (listAddElement l x) l) /\
    (forall k x, alikeLists (listAddValueElement l k x) l).
Proof. exact @metadata_setters. Qed.
Print Assumptions C85_metadata_setters.

(** What was set is got back, and nothing else changes. *)
Theorem C85_set_and_get :
  forall {T} (l : plist T) (n : node T) k k',
    (forall x, listGetAttribute (listSetAttribute l k x) k' = if String.eqb k' k then Some x else listGetAttribute l k') /\
    (forall x, listGetValueElement (listAddValueElement l k x) k' = if String.eqb k' k then Some x else listGetValueElement l k') /\
    (forall x, getAttribute (setAttribute n k x) k' = if String.eqb k' k then x else getAttribute n k') /\
    (forall x, getValueElement (setValue n k x) k' = if String.eqb k' k then Some x else getValueElement n k') /\
    getDynamicParam (setDynamicParam n k) k' = (String.eqb k' k || getDynamicParam n k')%bool.
Proof.
  exact (fun T l n k k' => conj (fun x => list_attributes l k x k') (conj (fun x => list_values l k x k')
          (conj (fun x => node_attributes n k x k') (conj (fun x => node_values n k x k') (node_params n k k'))))).
Qed.
Print Assumptions C85_set_and_get.

(** The named attributes of a list do not get in each other's way. *)
Theorem C85_list_names :
  forall {T} (l : plist T) name space id inv ver,
    let l' := setCompCLFversion (setInverseOf (setID (setNamespace (setName l name) space) id) inv) ver in
    getName l' = Some name /\ getNamespace l' = Some space /\ getID l' = Some id /\ getInverseOf l' = Some inv /\
    getCompCLFversion l' = Some ver /\ listIter l' = listIter l.
Proof. exact @list_names. Qed.
Print Assumptions C85_list_names.

(** Nodes come in the order they were added in; len counts them and indices, also negative
    ones, find them. *)
Theorem C85_order_added :
  forall {T} (l : plist T) ns, let l' := fold_left addProcess ns l in
    listIter l' = listIter l ++ ns /\ listLen l' = (listLen l + List.length ns)%nat.
Proof. exact @built. Qed.
Print Assumptions C85_order_added.

(** So do comments and Info blocks, after those the list had; None is ignored. *)
Theorem C85_elements_added :
  forall {T} a vs es (ps : list (node T)) xs,
    fold_left listAddElement xs (PList a vs es ps) =
      PList a vs (es ++ flat_map (fun x => match x with Some e => [e] | None => [] end) xs) ps.
Proof. exact (fun T a vs es ps xs => elements_added xs a vs es ps). Qed.
Print Assumptions C85_elements_added.

Theorem C85_items :
  forall {T} (l : plist T) k,
    (forall n, listItem l k = Ok n <->
       ((0 <= k)%Z /\ nth_error (listIter l) (Z.to_nat k) = Some n) \/
       ((k < 0)%Z /\ (0 <= k + Z.of_nat (listLen l))%Z /\ nth_error (listIter l) (Z.to_nat (k + Z.of_nat (listLen l))) = Some n)) /\
    ((k < - Z.of_nat (listLen l) \/ Z.of_nat (listLen l) <= k)%Z -> listItem l k = Err IndexError).
Proof. exact @items. Qed.
Print Assumptions C85_items.

(** Adding a node to a list whose last node is not skipped adds one step at the end, or
    nothing if the node is skipped. *)
Theorem C85_add_process :
  forall {T} {N : Num T} c (l : plist T) n values st,
    (forall p, lastNode (procs_of l) = Some p -> ~ skipped c p) ->
    (~ skipped c n -> outcome (listProcess c (addProcess l n) values st) =
       let* o := outcome (listProcess c l values st) in outcome (nodeProcess c n o st)) /\
    (skipped c n -> outcome (listProcess c (addProcess l n) values st) = outcome (listProcess c l values st)).
Proof. exact @add_process. Qed.
Print Assumptions C85_add_process.

(** The same for a Group, and looking nodes up in it. *)
Theorem C85_group_add :
  forall {T} {N : Num T} c h ps n (values : list T) st,
    (forall p, lastNode ps = Some p -> ~ hasBypass p) -> ~ hasBypass n ->
    outcome (nodeProcess c (groupAddProcess (Node h (BGroup ps)) n) values st) =
    let* o := outcome (nodeProcess c (Node h (BGroup ps)) values st) in outcome (nodeProcess c n o st).
Proof. exact @group_add. Qed.
Print Assumptions C85_group_add.

Theorem C85_group_find :
  forall {T} h (ps : list (node T)) n name,
    groupGetProcess (Node h (BGroup ps)) name = Some n <->
    exists before after, ps = before ++ n :: after /\ getAttribute n "name" = name /\ Forall (fun p => getAttribute p "name" <> name) before.
Proof. exact @group_find. Qed.
Print Assumptions C85_group_find.

(** What does not matter to processing can matter to saving: a LUT1D said to hold halfs after
    it was given its table processes like one said so before, but its file cannot be read. *)
Theorem C85_order_of_setters_refuted :
  forall (L : libm), let N := ieeeNum L in
  exists (lut : node fl) table early late rootEarly rootLate,
    setArray1D (setAttribute lut "rawHalfs" (ABool true)) 1 table "string" = Ok early /\
    (exists n, setArray1D lut 1 table "string" = Ok n /\ late = setAttribute n "rawHalfs" (ABool true)) /\
    alike early late /\
    listWrite 15 false (PList [] [] [] [early]) = Ok rootEarly /\ is_ok (listRead 15 noFiles true emptyList rootEarly) /\
    listWrite 15 false (PList [] [] [] [late]) = Ok rootLate /\ listRead 15 noFiles true emptyList rootLate = Err ValueError.
Proof. exact order_matters. Qed.
Print Assumptions C85_order_of_setters_refuted.

(** A doubling matrix added to a list and to a Group in it, under other names. *)
Definition twice (name : string) : node Z :=
  setMatrix (newMatrix (AStr "32f") (AStr "32f") (AStr "m") (AStr name)) [3; 3; 3]%nat [2; 0; 0; 0; 2; 0; 0; 0; 2]%Z "string".
Definition grouped (ps : list (node Z)) : node Z := Node (newHeader (AStr "32f") (AStr "32f") (AStr "g") (AStr "g")) (BGroup ps).
Definition unnamed : plist Z := PList [] [] [] [].
Example C85_case :
  let l := fold_left addProcess [twice "a"; grouped [twice "b"]] unnamed in
  let l' := setName (fold_left addProcess [twice "c"; addElement (grouped [setDynamicParam (twice "d") "x"]) (EDesc (Some "text"))] unnamed) "new" in
  alikeLists l' l /\ getName l' = Some "new" /\ l' <> l /\
  outcome (listProcess 15 l' [1; 2; 3]%Z 3) = Ok [4; 8; 12]%Z /\
  ~ skipped 15 (twice "a") /\
  outcome (listProcess 15 (addProcess l (twice "e")) [1; 2; 3]%Z 3) = Ok [8; 16; 24]%Z /\
  outcome (listProcess 15 (addProcess l (setAttribute (twice "e") "bypass" (ABool true))) [1; 2; 3]%Z 3) = Ok [4; 8; 12]%Z /\
  outcome (nodeProcess 15 (groupAddProcess (grouped [twice "a"]) (twice "e")) [1; 2; 3]%Z 3) = Ok [4; 8; 12]%Z /\
  listLen l = 2%nat /\ listItem l (-2) = Ok (twice "a") /\ listItem l 2 = Err IndexError /\
  groupGetProcess (grouped [twice "a"; twice "b"]) (AStr "b") = Some (twice "b").
Proof.
  cbv zeta. split.
  { repeat constructor; cbn; intuition (subst; reflexivity). }
  split; [reflexivity|]. split; [discriminate|]. split; [reflexivity|].
  split; [intros [_ (v & E & _)]; discriminate|]. repeat split.
Qed.
