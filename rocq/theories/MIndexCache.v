(** Model of python/aces/clf/IndexMap.py as an object with an optional cache of its
    evaluation. *)
From Verif Require Export MIndexMap.

Section IndexCache.
  Context {T : Type} {N : Num T}.

  (** IndexMap.py 65-75. The dimension and the values are [None] while they are the
      empty list; the values are otherwise the pair [inputs, outputs]. *)
  Record indexMap : Type := {
    ix_dim : option nat;
    ix_vals : option (list T * list T);
    ix_use : bool;                  (* _useCachedProcess *)
    ix_cache : option (array T)     (* _processCached *)
  }.

  (** IndexMap.py 95-127: _processRaw; without values [self._values[0]] raises. *)
  Definition ixRaw (m : indexMap) (value : T) : res T :=
    match ix_vals m with
    | None => Err IndexError
    | Some (ins, outs) => imapProcess {| im_dim := Some (List.length ins); im_in := ins; im_out := outs |} value
    end.

  (** IndexMap.py 131-152: _createCachedProcess. The table is a Python list. *)
  Definition ixCreate (m : indexMap) : res indexMap :=
    let* table := mapM (fun i => ixRaw m (nhalf (Z.of_nat i))) (seq 0 (256 * 256)) in
    Ok {| ix_dim := ix_dim m; ix_vals := ix_vals m; ix_use := ix_use m;
          ix_cache := Some {| a_dims := [List.length table; 1%nat]; a_vals := table; a_dt := DtList;
                              a_raw := false; a_int := false; a_enc := "string" |} |}.

  Definition isSome {A} (o : option A) : bool := match o with Some _ => true | None => false end.

  (** IndexMap.py 65-75: __init__. *)
  Definition newIndexMap (d : option nat) (vals : option (list T * list T)) (use : bool) : res indexMap :=
    let m := {| ix_dim := d; ix_vals := vals; ix_use := use; ix_cache := None |} in
    if use && isSome vals && isSome d then ixCreate m else Ok m.

  (** IndexMap.py 78-81: setDimension. *)
  Definition ixSetDimension (m : indexMap) (d : option nat) : indexMap :=
    {| ix_dim := d; ix_vals := ix_vals m; ix_use := ix_use m; ix_cache := ix_cache m |}.

  (** The object with other values. *)
  Definition withValues (m : indexMap) (vals : option (list T * list T)) : indexMap :=
    {| ix_dim := ix_dim m; ix_vals := vals; ix_use := ix_use m; ix_cache := ix_cache m |}.

  (** IndexMap.py 83-86: setValues. [_createCachedEval] is no method of the class. The
      object is returned besides the outcome because the assignment comes first. *)
  Definition ixSetValues (m : indexMap) (vals : option (list T * list T)) : res unit * indexMap :=
    (if ix_use m && isSome vals && isSome (ix_dim m) then Err AttributeError else Ok tt, withValues m vals).

  (** IndexMap.py 90-91: setuseCachedProcess. *)
  Definition ixSetUse (m : indexMap) (use : bool) : indexMap :=
    {| ix_dim := ix_dim m; ix_vals := ix_vals m; ix_use := use; ix_cache := ix_cache m |}.

  (** IndexMap.py 166-175: read, of an element whose attribute "dim" (if present) and pairs
      have been parsed. *)
  Definition ixRead (m : indexMap) (d : option nat) (ins outs : list T) : indexMap :=
    {| ix_dim := match d with Some _ => d | None => ix_dim m end; ix_vals := Some (ins, outs);
       ix_use := ix_use m; ix_cache := ix_cache m |}.

  (** IndexMap.py 177-187: process, with the object it leaves behind. The value is a numpy
      float32, which is what the nodes pass (LUT1D.py 174, LUT3D.py 161). *)
  Definition ixProcess (m : indexMap) (value : T) : res T * indexMap :=
    if ix_use m then
      match ix_cache m with
      | Some a => (lookup1DHalfDomain a value 0, m)
      | None =>
          match ixCreate m with
          | Err e => (Err e, m)
          | Ok m' =>
              (match ix_cache m' with Some a => lookup1DHalfDomain a value 0 | None => Err AttributeError end, m')
          end
      end
    else (ixRaw m value, m).

  (** What can be done to the object. *)
  Inductive ixCall : Type :=
  | CDimension (d : option nat)
  | CValues (vals : option (list T * list T))
  | CUse (use : bool)
  | CRead (d : option nat) (ins outs : list T)
  | CProcess (value : T).
  Definition ixDo (m : indexMap) (k : ixCall) : indexMap :=
    match k with
    | CDimension d => ixSetDimension m d
    | CValues v => snd (ixSetValues m v)
    | CUse b => ixSetUse m b
    | CRead d i o => ixRead m d i o
    | CProcess v => snd (ixProcess m v)
    end.
  Definition ixDoAll (m : indexMap) (ks : list ixCall) : indexMap := fold_left ixDo ks m.
End IndexCache.
Arguments indexMap T : clear implicits.
Arguments ixCall T : clear implicits.
