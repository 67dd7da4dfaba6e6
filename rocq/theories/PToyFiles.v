(** A small file library, for concrete cases: contents are whole documents, gzipped
    contents, or something cut off. *)
From Coq Require Import List String.
From Verif Require Import PXmlRead SpecFiles PIndent.
Import ListNotations.
Local Open Scope string_scope.
Local Open Scope list_scope.

Inductive content := Text (e : xelem) | Zipped (c : content) | Cut.
(** Parsing gives the line breaks that printing added. *)
Fixpoint indented (e : xelem) : xelem :=
  match e with XElem t a x ch => XElem t a (match ch with [] => x | _ => Some "
  " end) (map indented ch) end.
Definition toyFiles : fileLib content :=
  {| pretty := fun e => Ok (Text e);
     parseXml := fun c => match c with Text e => Some (indented e) | _ => None end;
     gzip := Zipped;
     gunzip := fun c => match c with Zipped c => Some c | _ => None end;
     accepts := fun _ => true;
     nothing := Cut;
     prefixes := fun _ => [] |}.

Lemma indented_same e : sameTree e (indented e).
Proof.
  induction e as [t a x ch IH] using xelem_induction. cbn [indented]. apply sameTree_eq. repeat split.
  - intros ->. reflexivity.
  - induction IH as [|c ch H _ IHc]; cbn [map]; constructor; assumption.
Qed.
Lemma toy_keeps root : keepsDocument toyFiles root.
Proof. exists (Text root), (indented root). repeat split. apply indented_same. Qed.
Lemma toy_gzip : gzipNotXml toyFiles.
Proof. intros [e|c|] b'; cbn; congruence. Qed.
Lemma toy_refers fs p q : refersTo toyFiles fs p q ->
  exists e d, (fs p = Some (Text e) \/ fs p = Some (Zipped (Text e))) /\ In d (x_children (indented e)) /\ linksTo q d.
Proof.
  intros (root & d & (b & Eb & Hb) & Hd & Hl). destruct Hb as [Hb|(b' & Hg & Hb)].
  - destruct b as [e|c|]; try discriminate. injection Hb as <-. exists e, d. auto.
  - destruct b as [e|c|]; try discriminate. injection Hg as <-. destruct c as [e|c|]; try discriminate. injection Hb as <-. exists e, d. auto.
Qed.
