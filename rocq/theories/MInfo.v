(** Model of the printInfo methods of python/aces/clf (what python/bin/clfinfo shows).
    A printed line is its caption and the data in it, not the padded text; the text of
    table values is kept, other numbers appear as numbers. Dictionaries are
    walked in the order of the model's lists, as in MXml.v. *)
From Verif Require Export MXml.
Local Open Scope string_scope.
Local Open Scope list_scope.

Section Info.
  Context {T : Type} {NM : Num T} {X : NumText T}.

  Inductive line : Type :=
  | LCaption (s : string)                              (* "ProcessList", "Array", "Values", "Process Nodes", "" … *)
  | LNode (type : string)                              (* ProcessNode type : … *)
  | LAttribute (k : string) (v : aval)
  | LElement (k : string) (x : T)
  | LDynamic (s : string)
  | LComment (kind : string) (x : option string)
  | LDimensions (dims : list nat)
  | LRow (words : list string)                         (* a row of a table, or an entry of a long index map *)
  | LDots                                              (* "    ...    " *)
  | LLength (n : nat)
  | LMap (pairs : list (option T * option T))          (* a short index map, on one line *)
  | LValue (k : string) (xs : list T)
  | LResolved.                                         (* Resolved Path : … *)

  (** The lines printed, and the exception that stopped the printing. *)
  Definition shown : Type := (list line * option exn)%type.
  Definition say (ls : list line) : shown := (ls, None).
  Definition andThen (a b : shown) : shown :=
    match snd a with None => (fst a ++ fst b, snd b) | Some _ => a end.
  Definition sayOr (r : res (list line)) : shown := match r with Ok ls => say ls | Err e => ([], Some e) end.
  Fixpoint showAll {A} (f : A -> shown) (l : list A) : shown :=
    match l with [] => say [] | x :: t => andThen (f x) (showAll f t) end.

  (** Array.py 266-272 = 277-282 = 284-289: one row. ["%15s" % str(int(x))] or
      ["%15s" % ("%6.9f" % float(x))]. *)
  Definition showRow (a : array T) (columns n : nat) : shown :=
    sayOr (let* ws := mapM (fun x => if a_int a then let* z := pyint x in Ok (zText z) else Ok (formatFixed 9 x))
                           (slice (a_vals a) (n * columns) ((n + 1) * columns)) in
           Ok [LRow ws]).
  (** Array.py 250-291. *)
  Definition showArray (a : array T) : shown :=
    andThen (say [LCaption "Array"; LDimensions (a_dims a); LCaption "Values"])
      match (let* columns := arrayColumns (a_dims a) in
             let* rows := pydiv (List.length (a_vals a)) columns in Ok (columns, rows)) with
      | Err e => ([], Some e)
      | Ok (columns, rows) =>
          if Nat.ltb 10 rows then
            andThen (showAll (showRow a columns) (seq 0 3))
              (andThen (say [LDots]) (showAll (showRow a columns) (seq (rows - 3) 3)))
          else showAll (showRow a columns) (seq 0 rows)
      end.

  (** IndexMap.py 189-209. A map constructed without values has no lists at all and
      raises IndexError here; the model's maps have both. *)
  Definition pairWords (p : option T * option T) : res (list string) :=
    match p with
    | (Some a, Some b) => Ok [formatFixed 9 a; formatFixed 9 b]
    | _ => Err TypeError
    end.
  Definition showIMap (m : imap T) : shown :=
    let length := List.length (im_in m) in
    andThen (say [LCaption "IndexMap"; LLength length; LCaption "Values"])
      (if Nat.ltb length 15 then say [LMap (padZip (im_in m) (im_out m))]
       else
         match mapM pairWords (padZip (im_in m) (im_out m)) with
         | Err e => ([], Some e)
         | Ok pairs =>
             let entry n := sayOr (let* p := getn pairs n in Ok [LRow p]) in
             andThen (showAll entry (seq 0 3)) (andThen (say [LDots]) (showAll entry (seq (length - 3) 3)))
         end).

  (** Comment.py 85-87, Info.py 109-113. *)
  Definition showPlelem (e : plelem) : list line :=
    match e with
    | PEComment kind x => [LComment kind x]
    | PEInfo cs => LCaption "Info" :: map (fun '(k, x) => LComment k x) cs
    end.
  Definition showElement (e : element T) : shown :=
    match e with
    | EDesc x => say [LComment "Description" x]
    | EArray a => showArray a
    | EIndexMap m => showIMap m
    | EMisc p => say (showPlelem p)
    end.

  (** ASCCDL.py 236-250. *)
  Definition showCdl (v : cdl T) : list line :=
    let value k o := match o with Some xs => [LValue k xs] | None => [] end in
    value "slope" (c_slope v) ++ value "offset" (c_offset v) ++ value "power" (c_power v) ++
    match c_sat v with Some x => [LValue "saturation" [x]] | None => [] end.
  (** ExtensionGamma.py 191-211: the loop of 115-127 again. *)
  Definition showGamma (ps : list (gparam T)) : shown :=
    sayOr (let* gp := gammaParams ps in let '(gamma, offset) := gp in Ok [LValue "gamma" gamma; LValue "offset" offset]).
  (** ExtensionLog.py 235-272: the loop of 131-152 again. *)
  Definition showLog (ps : list (lparam T)) : shown :=
    sayOr (let* cs := logParams ps in
           Ok [LValue "gamma" (map lc_gamma cs); LValue "ref white" (map lc_white cs); LValue "ref black" (map lc_black cs);
               LValue "highlight" (map lc_high cs); LValue "shadow" (map lc_shadow cs)]).
  (** ExtensionExposureContrast.py 174-188: "contrast":param[0]. *)
  Definition showEC (p : eparam T) : list line :=
    [LValue "exposure" [e_exposure p]; LValue "contrast" [e_exposure p]; LValue "pivot" [e_pivot p]].

  (** ProcessNode.py 240-262. *)
  Definition showHeader (type : string) (h : header T) : shown :=
    andThen (say (LNode type :: map (fun '(k, v) => LAttribute k v) (h_attrs h) ++
                  map (fun '(k, x) => LElement k x) (h_vals h) ++ map LDynamic (h_dyn h)))
            (showAll showElement (h_elems h)).

  (** ProcessNode.py 240-266 with the printInfoChild of each class
      (ExtensionGroup.py 158-164, ExtensionReference.py 146-150), ProcessList.py
      400-423. *)
  Fixpoint showNode (n : node T) {struct n} : shown :=
    match n with
    | Node h b =>
        let child :=
          match b with
          | BRange | BMatrix | BLUT1D | BLUT3D => say []
          | BCDL v | BColorCorrection v => say (showCdl v)
          | BGamma ps => showGamma ps
          | BLog ps => showLog ps
          | BExposureContrast p => say (showEC p)
          | BReference _ pl =>
              andThen (say [LResolved])
                match pl with
                | None => say []
                | Some (PList attrs vals elems ps) =>
                    andThen (say (LCaption "ProcessList" :: map (fun '(k, v) => LAttribute k (AStr v)) attrs ++
                                  map (fun '(k, x) => LElement k x) vals ++ List.concat (map showPlelem elems) ++
                                  [LCaption ""; LCaption "Process Nodes"]))
                      ((fix go (ps : list (node T)) : shown :=
                          match ps with [] => say [] | p :: t => andThen (andThen (showNode p) (say [LCaption ""])) (go t) end) ps)
                end
          | BGroup ps =>
              andThen (say [LCaption "Process Nodes"])
                ((fix go (ps : list (node T)) : shown :=
                    match ps with [] => say [] | p :: t => andThen (andThen (showNode p) (say [LCaption ""])) (go t) end) ps)
          end in
        andThen (showHeader (nodeTag b) h) (andThen child (say [LCaption ""]))
    end.
  Definition showNodes (ps : list (node T)) : shown := showAll (fun p => andThen (showNode p) (say [LCaption ""])) ps.
  Definition showListHead (l : plist T) : list line :=
    match l with
    | PList attrs vals elems ps =>
        LCaption "ProcessList" :: map (fun '(k, v) => LAttribute k (AStr v)) attrs ++
        map (fun '(k, x) => LElement k x) vals ++ List.concat (map showPlelem elems) ++ [LCaption ""; LCaption "Process Nodes"]
    end.
  Definition showList (l : plist T) : shown := andThen (say (showListHead l)) (showNodes (procs_of l)).
End Info.
Arguments line : clear implicits.
Arguments shown : clear implicits.
