(** Model of the accessors of python/aces/clf/ProcessList.py. *)
From Verif Require Export MBuild.

Section ListApi.
  Context {T : Type}.

  (** ProcessList.py 296-303. [None] is [ANone]. *)
  Definition listSetInBitDepth (l : plist T) (d : aval) : plist T :=
    match l with
    | PList a v e [] => l
    | PList a v e (p :: ps) => PList a v e (setAttribute p "inBitDepth" d :: ps)
    end.
  Definition listGetInBitDepth (l : plist T) : aval :=
    match procs_of l with [] => ANone | p :: _ => getInBitDepth p end.

  (** [self._processes[-1].setAttribute(name, value)]. *)
  Fixpoint setLastAttr (ps : list (node T)) (k : string) (v : aval) : list (node T) :=
    match ps with
    | [] => []
    | [p] => [setAttribute p k v]
    | p :: rest => p :: setLastAttr rest k v
    end.

  (** ProcessList.py 305-312. *)
  Definition listSetOutBitDepth (l : plist T) (d : aval) : plist T :=
    match l with PList a v e ps => PList a v e (setLastAttr ps "outBitDepth" d) end.
  Fixpoint lastOut (ps : list (node T)) : aval :=
    match ps with [] => ANone | [p] => getOutBitDepth p | _ :: rest => lastOut rest end.
  Definition listGetOutBitDepth (l : plist T) : aval := lastOut (procs_of l).

  (** ProcessList.py 333-342. *)
  Definition addProcess (l : plist T) (n : node T) : plist T :=
    match l with PList a v e ps => PList a v e (ps ++ [n]) end.
  Fixpoint findNode (ps : list (node T)) (name : aval) : option (node T) :=
    match ps with
    | [] => None
    | p :: rest => if aval_eqb (getAttribute p "name") name then Some p else findNode rest name
    end.
  Definition getProcess (l : plist T) (name : aval) : option (node T) := findNode (procs_of l) name.

  (** ProcessList.py 106-116: iteration, [l[key]] for an integer key, [len(l)]. *)
  Definition listIter (l : plist T) : list (node T) := procs_of l.
  Definition listItem (l : plist T) (key : Z) : res (node T) := pyget (procs_of l) key.
  Definition listLen (l : plist T) : nat := List.length (procs_of l).

  (** ProcessList.py 261-293. The values are texts, as those read from files. *)
  Definition listSetAttribute (l : plist T) (k v : string) : plist T :=
    match l with PList a vs e ps => PList (dset a k v) vs e ps end.
  Definition listGetAttribute (l : plist T) (k : string) : option string :=
    match l with PList a _ _ _ => dget a k end.
  Definition setName (l : plist T) v := listSetAttribute l "name" v.
  Definition getName (l : plist T) := listGetAttribute l "name".
  Definition setNamespace (l : plist T) v := listSetAttribute l "xmlns" v.
  Definition getNamespace (l : plist T) := listGetAttribute l "xmlns".
  Definition setID (l : plist T) v := listSetAttribute l "id" v.
  Definition getID (l : plist T) := listGetAttribute l "id".
  Definition setInverseOf (l : plist T) v := listSetAttribute l "inverseOf" v.
  Definition getInverseOf (l : plist T) := listGetAttribute l "inverseOf".
  Definition setCompCLFversion (l : plist T) v := listSetAttribute l "compCLFversion" v.
  Definition getCompCLFversion (l : plist T) := listGetAttribute l "compCLFversion".

  (** ProcessList.py 315-331 (addElement ignores None; getElement, an unfinished
      stub, is left out). *)
  Definition listAddElement (l : plist T) (x : option plelem) : plist T :=
    match l, x with
    | PList a vs e ps, Some x => PList a vs (e ++ [x]) ps
    | _, None => l
    end.
  Definition listAddValueElement (l : plist T) (k : string) (v : T) : plist T :=
    match l with PList a vs e ps => PList a (dset vs k v) e ps end.
  Definition listGetValueElement (l : plist T) (k : string) : option T :=
    match l with PList _ vs _ _ => dget vs k end.

  (** ProcessNode.py 287-299 (addValueElement is [setValue] of MBuild.v). *)
  Definition getValueElement (n : node T) (k : string) : option T := dget (h_vals (nheader n)) k.
  Definition setDynamicParam (n : node T) (p : string) : node T :=
    match n with Node h b => Node (hAddDyn h p) b end.
  Definition getDynamicParam (n : node T) (p : string) : bool := existsb (String.eqb p) (h_dyn (nheader n)).

  (** ExtensionGroup.py 73-82. Defined for Group nodes only. *)
  Definition groupAddProcess (g n : node T) : node T :=
    match g with
    | Node h (BGroup ps) => Node h (BGroup (ps ++ [n]))
    | _ => g
    end.
  Definition groupGetProcess (g : node T) (name : aval) : option (node T) :=
    match g with
    | Node _ (BGroup ps) => findNode ps name
    | _ => None
    end.
End ListApi.
