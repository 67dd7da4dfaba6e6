(** Vocabulary for rounding errors of a whole list: the same list with exact numbers, and how
    an error travels from node to node. *)
From Coq Require Import Reals ZArith List String.
From Flocq Require Import Core BinarySingleNaN.
From Verif Require Export SpecClose SpecIeee SpecSampling.
Import ListNotations.
Local Open Scope R_scope.

(** The same node, and list, with every floating point number it holds taken as a real. *)
Definition exactArray (a : array fl) : array R :=
  {| a_dims := a_dims a; a_vals := map B2R (a_vals a); a_dt := a_dt a; a_raw := a_raw a; a_int := a_int a; a_enc := a_enc a |}.
Definition exactElement (e : element fl) : element R :=
  match e with
  | EDesc t => EDesc t
  | EArray a => EArray (exactArray a)
  | EIndexMap m => EIndexMap {| im_dim := im_dim m; im_in := map B2R (im_in m); im_out := map B2R (im_out m) |}
  | EMisc e => EMisc e
  end.
Definition exactVals (v : list (string * fl)) : list (string * R) := map (fun p => (fst p, B2R (snd p))) v.
Definition exactHeader (h : header fl) : header R :=
  {| h_attrs := h_attrs h; h_vals := exactVals (h_vals h); h_dyn := h_dyn h; h_elems := map exactElement (h_elems h) |}.
Definition exactCdl (v : cdl fl) : cdl R :=
  {| c_slope := option_map (map B2R) (c_slope v); c_offset := option_map (map B2R) (c_offset v);
     c_power := option_map (map B2R) (c_power v); c_sat := option_map B2R (c_sat v) |}.
Fixpoint exactNode (n : node fl) : node R :=
  match n with Node h b => Node (exactHeader h) (exactBody b) end
with exactBody (b : body fl) : body R :=
  match b with
  | BRange => BRange
  | BMatrix => BMatrix
  | BLUT1D => BLUT1D
  | BLUT3D => BLUT3D
  | BCDL v => BCDL (exactCdl v)
  | BColorCorrection v => BColorCorrection (exactCdl v)
  | BGamma ps => BGamma (map (fun p => {| g_gamma := B2R (g_gamma p); g_offset := B2R (g_offset p); g_chan := g_chan p |}) ps)
  | BLog ps => BLog (map (fun p => {| l_gamma := B2R (l_gamma p); l_white := B2R (l_white p); l_black := B2R (l_black p);
                                      l_high := B2R (l_high p); l_shadow := B2R (l_shadow p); l_chan := l_chan p |}) ps)
  | BExposureContrast p => BExposureContrast {| e_exposure := B2R (e_exposure p); e_contrast := B2R (e_contrast p); e_pivot := B2R (e_pivot p) |}
  | BReference w l => BReference w (match l with None => None | Some l => Some (exactList l) end)
  | BGroup ps => BGroup (map exactNode ps)
  end
with exactList (l : plist fl) : plist R :=
  match l with PList a v e ps => PList a (exactVals v) e (map exactNode ps) end.

(** Three finite samples of size at most [B]; samples within [e] of exact ones. *)
Definition sized (B : R) (px : list fl) : Prop :=
  List.length px = 3%nat /\ Forall (fun x => is_finite x = true /\ Rabs (B2R x) <= B) px.
Definition apart (e : R) (px : list fl) (px' : list R) : Prop := Forall2 (fun x x' => Rabs (B2R x - x') <= e) px px'.

(** On colours of size at most [B] the node gives colours of size at most [B'].  If the exact
    node is given a colour that differs by [e], what it gives differs by at most K e + E. *)
Definition follows {N : Num fl} (c : Z) (n : node fl) (B K E B' : R) : Prop :=
  forall px px' e, sized B px -> apart e px px' ->
    exists ys ys', outcome (nodeProcess c n px 3) = Ok ys /\ outcome (nodeProcess c (exactNode n) px' 3) = Ok ys' /\
      sized B' ys /\ apart (K * e + E) ys ys'.

(** Nodes that follow one another: colours of size [B] with error [e] become colours of size
    [B'] with error [e']. *)
Inductive budget {N : Num fl} (c : Z) : list (node fl) -> R -> R -> R -> R -> Prop :=
| budget_nil B e : budget c [] B e B e
| budget_cons n ns B e K E B1 B' e' :
    notBypassed n = true -> follows c n B K E B1 -> budget c ns B1 (K * e + E) B' e' -> budget c (n :: ns) B e B' e'.

(** One unit of float32 precision for numbers of size [m]. *)
Definition unit32 (m : R) : R := bpow radix2 (-23) * m + bpow radix2 (-148).

(** The two limits of a Range are apart, compared with their size. *)
Definition wide (lo hi : fl) : Prop := Rabs (B2R lo) + Rabs (B2R hi) <= 1048576 * (B2R hi - B2R lo).
