(** Vocabulary for what clfinfo shows. *)
From Coq Require Import List String ZArith Arith.
From Verif Require Export MInfo SpecXml SpecWrite.
Import ListNotations.
Local Open Scope string_scope.
Local Open Scope list_scope.

Section Shown.
  Context {T : Type} {NM : Num T} {X : NumText T}.

  (** A node followed by the nodes of its Group, or of the list it refers to, all the way
      down. *)
  Fixpoint deepNodes (n : node T) : list (node T) :=
    n :: match n with
         | Node _ (BGroup ps) => (fix go (ps : list (node T)) := match ps with [] => [] | p :: t => deepNodes p ++ go t end) ps
         | Node _ (BReference _ (Some (PList _ _ _ ps))) =>
             (fix go (ps : list (node T)) := match ps with [] => [] | p :: t => deepNodes p ++ go t end) ps
         | _ => []
         end.
  Definition nodesOf (l : plist T) : list (node T) := flat_map deepNodes (procs_of l).

  (** The node types the lines name, in order. *)
  Definition typesShown (ls : list (line T)) : list string :=
    flat_map (fun l => match l with LNode t => [t] | _ => [] end) ls.

  (** The parameters the lines show, by name. *)
  Definition valuesShown (ls : list (line T)) : list (string * list T) :=
    flat_map (fun l => match l with LValue k xs => [(k, xs)] | _ => [] end) ls.

  (** The comments the lines show, with their kinds. *)
  Definition commentsShown (ls : list (line T)) : list (string * option string) :=
    flat_map (fun l => match l with LComment k x => [(k, x)] | _ => [] end) ls.
  (** The comments at the head of a list. *)
  Definition headComments (elems : list plelem) : list (string * option string) :=
    flat_map (fun e => match e with PEComment k x => [(k, x)] | PEInfo cs => cs end) elems.
  (** The comments of a node, then those of the nodes of its Group or of the list it
      refers to. *)
  Fixpoint nodeComments (n : node T) : list (string * option string) :=
    match n with
    | Node h b =>
        flat_map (fun e => match e with EDesc x => [("Description", x)] | EMisc e => headComments [e] | _ => [] end) (h_elems h) ++
        match b with
        | BGroup ps => (fix go (ps : list (node T)) := match ps with [] => [] | p :: t => nodeComments p ++ go t end) ps
        | BReference _ (Some (PList _ _ elems ps)) =>
            headComments elems ++
            (fix go (ps : list (node T)) := match ps with [] => [] | p :: t => nodeComments p ++ go t end) ps
        | _ => []
        end
    end.
  Definition listComments (l : plist T) : list (string * option string) :=
    match l with PList _ _ elems ps => headComments elems ++ flat_map nodeComments ps end.

  (** The lines for the entries of an index map as long on both sides: up to 14 on one
      line, otherwise the first and last three. *)
  Definition mapLines (m : imap T) : list (line T) :=
    let n := List.length (im_in m) in
    let entry i := flat_map (fun p => [LRow [formatFixed 9 (fst p); formatFixed 9 (snd p)]]) (firstn 1 (skipn i (combine (im_in m) (im_out m)))) in
    if Nat.ltb n 15 then [LMap (map (fun p => (Some (fst p), Some (snd p))) (combine (im_in m) (im_out m)))]
    else flat_map entry [0; 1; 2] ++ LDots :: flat_map entry [n - 3; n - 2; n - 1].

  (** Row [i] of a table of [k] columns. *)
  Definition tableRow (k i : nat) (vs : list T) : list T := firstn k (skipn (i * k) vs).
  (** The rows shown of [n]: all up to ten, otherwise the first and last three. *)
  Definition rowsShown (n : nat) : list nat := if Nat.leb n 10 then seq 0 n else [0; 1; 2; n - 3; n - 2; n - 1].
  Definition wordShown (integers : bool) (x : T) : string := if integers then zText (ntrunc x) else formatFixed 9 x.

  Definition channelsKnown (cs : list (option string)) : Prop :=
    Forall (fun c => c = None \/ c = Some "R" \/ c = Some "G" \/ c = Some "B") cs.

  (** What can be shown. *)
  Definition canShow (e : element T) : Prop :=
    match e with
    | EArray a =>
        exists k, rowLength (a_dims a) = Some k /\ k <> 0 /\
          (a_int a = true -> forall i x, In i (rowsShown (List.length (a_vals a) / k)) -> In x (tableRow k i (a_vals a)) -> finite x)
    | EIndexMap m => List.length (im_in m) < 15 \/ List.length (im_in m) = List.length (im_out m)
    | _ => True
    end.
  Definition canShowNode (n : node T) : Prop :=
    match n with
    | Node h b =>
        Forall canShow (h_elems h) /\
        match b with
        | BGamma ps => channelsKnown (map g_chan ps)
        | BLog ps => channelsKnown (map l_chan ps)
        | _ => True
        end
    end.

  (** The lines for the type, attributes, limits and dynamic parameters of a node. *)
  Definition nodeLines (n : node T) : list (line T) :=
    match n with
    | Node h b => LNode (nodeTag b) :: map (fun kv => LAttribute (fst kv) (snd kv)) (h_attrs h) ++
                  map (fun kv => LElement (fst kv) (snd kv)) (h_vals h) ++ map LDynamic (h_dyn h)
    end.
  (** The lines for the values of a table with rows of [k]. *)
  Definition tableLines (a : array T) (k : nat) : list (line T) :=
    let n := (List.length (a_vals a) / k)%nat in
    let row i := LRow (map (wordShown (a_int a)) (tableRow k i (a_vals a))) in
    if Nat.leb n 10 then map row (seq 0 n) else map row [0; 1; 2] ++ LDots :: map row [n - 3; n - 2; n - 1].

  (** The channels of a Gamma or Log node are R, G and B. *)
  Definition curvesKnown (n : node T) : Prop :=
    match nbody n with BGamma ps => channelsKnown (map g_chan ps) | BLog ps => channelsKnown (map l_chan ps) | _ => True end.
  (** Not a Reference to a list that was found. *)
  Definition unresolved (n : node T) : Prop := forall w l, nbody n <> BReference w (Some l).
End Shown.
