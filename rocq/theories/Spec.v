(** Small vocabulary used in the statements of the properties. It is written
    independently of how the model computes. *)
From Verif Require Import MProcess.

Section Spec.
  Context {T : Type} {N : Num T}.

  (** The colours a call produced, if it produced any. *)
  Definition colours (r : res (pout T)) : option (list T) :=
    match r with Ok o => Some (po_out o) | Err _ => None end.

  (** The same with the exception: what the caller sees of a call. *)
  Definition outcome (r : res (pout T)) : res (list T) :=
    match r with Ok o => Ok (po_out o) | Err e => Err e end.

  (** Run [f] on every pixel separately and join the results; fails if one fails. *)
  Fixpoint each (f : list T -> option (list T)) (pxs : list (list T)) : option (list T) :=
    match pxs with
    | [] => Some []
    | px :: t =>
        match f px, each f t with
        | Some a, Some b => Some (a ++ b)
        | _, _ => None
        end
    end.

  (** A buffer cut into whole pixels. *)
  Definition cutInto (st : nat) (pxs : list (list T)) (buf : list T) : Prop :=
    buf = List.concat pxs /\ Forall (fun px => List.length px = st) pxs.

  (** No node of the given kind anywhere inside a node (Groups and References
      included). *)
  Fixpoint noneInside (bad : body T -> bool) (n : node T) : Prop :=
    match n with
    | Node _ b =>
        bad b = false /\
        match b with
        | BReference _ (Some (PList _ _ _ ps)) =>
            (fix all (ps : list (node T)) : Prop :=
               match ps with [] => True | p :: t => noneInside bad p /\ all t end) ps
        | BGroup ps =>
            (fix all (ps : list (node T)) : Prop :=
               match ps with [] => True | p :: t => noneInside bad p /\ all t end) ps
        | _ => True
        end
    end.

  Definition isExposureContrast (b : body T) : bool :=
    match b with BExposureContrast _ => true | _ => false end.

  (** The node carries a bypass attribute (with any value a file or the API can give it). *)
  Definition hasBypass (n : node T) : Prop :=
    exists v, dget (h_attrs (nheader n)) "bypass" = Some v /\ v <> ANone.

  Definition lastNode (ps : list (node T)) : option (node T) := hd_error (rev ps).
  Definition firstNode (ps : list (node T)) : option (node T) := hd_error ps.

  (** [o] is not a node that carries bypass. *)
  Definition runs (o : option (node T)) : Prop :=
    match o with Some n => ~ hasBypass n | None => True end.

  (** The node with its bypass attribute deleted. *)
  Definition dropBypass (n : node T) : node T :=
    match n with
    | Node h b =>
        Node {| h_attrs := filter (fun kv => negb (String.eqb (fst kv) "bypass")) (h_attrs h);
                h_vals := h_vals h; h_dyn := h_dyn h; h_elems := h_elems h |} b
    end.
  (** ** Headers *)

  (** Both bit-depth attributes are there (every constructor sets them). *)
  Definition hasDepths (h : header T) : Prop :=
    (exists d, dget (h_attrs h) "inBitDepth" = Some d) /\ (exists d, dget (h_attrs h) "outBitDepth" = Some d).

  (** Range limit [k] is in force with normalised value [v]: it was set explicitly
      (in code values of depth [d]), or it was not set but the node has a
      defaultRange attribute and [v] is the default. *)
  Definition limitIs (h : header T) (d : aval) (k : string) (dflt v : T) : Prop :=
    (exists w, dget (h_vals h) k = Some w /\ v = ndiv w (bitDepthSize d)) \/
    (dget (h_vals h) k = None /\ dget (h_attrs h) "defaultRange" <> None /\ v = dflt).

  Definition withStyle (h : header T) (s : string) : header T :=
    {| h_attrs := dset (h_attrs h) "style" (AStr s); h_vals := h_vals h; h_dyn := h_dyn h; h_elems := h_elems h |}.

  (** ** Kinds of nodes *)

  (** Nodes that change the first three channels of each pixel only. *)
  Definition colourNode (b : body T) : Prop :=
    match b with
    | BLUT1D | BLUT3D | BCDL _ | BColorCorrection _ | BGamma _ | BLog _ => True
    | _ => False
    end.

  (** Nodes that work pixel by pixel. *)
  Definition pixelNode (b : body T) : Prop :=
    match b with
    | BLUT1D | BLUT3D | BCDL _ | BColorCorrection _ | BGamma _ | BLog _ | BMatrix | BExposureContrast _ => True
    | _ => False
    end.

  (** Autodesk CDL style names and the CLF names they stand for. *)
  Definition autodeskCDL : list (string * string) :=
    [("v1.2_Fwd", "Fwd"); ("noClampFwd", "FwdNoClamp"); ("v1.2_Rev", "Rev"); ("noClampRev", "RevNoClamp")].
  Definition knownCDL : list string :=
    ["Fwd"; "v1.2_Fwd"; "FwdNoClamp"; "noClampFwd"; "Rev"; "v1.2_Rev"; "RevNoClamp"; "noClampRev"].

  (** Styles the Gamma, Log and ExposureContrast nodes know. *)
  Definition knownStyle (b : body T) (s : aval) : Prop :=
    match b with
    | BGamma _ => In s [AStr "basicFwd"; AStr "basicRev"; AStr "moncurveFwd"; AStr "moncurveRev"]
    | BLog _ => In s [AStr "log10"; AStr "log2"; AStr "antiLog10"; AStr "antiLog2"; AStr "logToLin"; AStr "linToLog"]
    | BExposureContrast _ => In s [AStr "linear"; AStr "video"; AStr "log"]
    | _ => False
    end.

  (** ** Tables *)

  (** A 1D array that holds what its dimensions announce. *)
  Definition wellFormed1D (a : array T) : Prop :=
    exists d0 d1 rest, a_dims a = d0 :: d1 :: rest /\ 1 <= d0 /\ 1 <= d1 /\ List.length (a_vals a) = d0 * d1.

  (** A 3D array of [n] entries per side. *)
  Definition wellFormed3D (a : array T) (n : nat) : Prop :=
    (exists rest, a_dims a = n :: n :: n :: rest) /\ 1 <= n /\ List.length (a_vals a) = n * n * n * 3.

  (** An index map of at least one point, without NaN among its inputs. *)
  Definition wellFormedMap (m : imap T) : Prop :=
    im_in m <> [] /\ List.length (im_out m) = List.length (im_in m) /\ Forall (fun x => nisnan x = false) (im_in m).

  (** No index map, one for all channels, or one per channel. *)
  Definition goodMaps (ims : list (imap T)) : Prop :=
    (List.length ims <= 1 \/ 3 <= List.length ims) /\ Forall wellFormedMap ims.
End Spec.
