(** Files: gzip (C49), saving (C45, C50), files that refer to files (C52). *)
From Coq Require Import List String Relations ZArith.
From Flocq Require Import BinarySingleNaN.
From Verif Require Import SpecFiles PNumText PTextIeee PFilesRead PIndent PToyFiles MBuild Thm_Write.
Import ListNotations.
Local Open Scope string_scope.
Local Open Scope list_scope.

(** * C45, with files *)

(** Saving a list and opening the file, gzipped or not, strictly or leniently, gives the
    list with the numbers as their text keeps them, if the XML and gzip libraries
    keep its document. Indentation makes no difference. *)
Theorem C45_save_and_open :
  forall (L : libm), let N := ieeeNum L in
  forall B (io : fileLib B) c c' gz (l : plist fl) root b steps fs path limit strict,
    autodesk_on c' = true -> duiker_on c' = true ->
    storableList (loadFrom io limit c' (putFile fs path b)) l ->
    listWrite c false l = Ok root -> keepsDocument io root ->
    writeFile io c false gz l = (Ok true, steps ++ [b]) ->
    openList io (S limit) c' (putFile fs path b) strict path = Ok (keptList l).
Proof. exact (fun L => @save_load fl (ieeeNum L) ieeeText (ieeeOk L)). Qed.
Print Assumptions C45_save_and_open.

Example C45_save_case (L : libm) : let N := ieeeNum L in
  let inner := Text (XElem "ProcessList" [("id", "inner")] None []) in
  let fs := fun p => if String.eqb p "/inner.clf" then Some inner else None in
  let l := richList L (PList [("id", "inner")] [] [] []) in
  exists b steps, writeFile toyFiles 15 false true l = (Ok true, steps ++ [b]) /\
    openList toyFiles 2 15 (putFile fs "look.clf" b) true "look.clf" = Ok (keptList l).
Proof.
  intros N inner fs l. destruct (C45_case L (PList [("id", "inner")] [] [] [])) as (_ & root & W & _ & _).
  exists (Zipped (Text root)), [Cut].
  assert (Wf : writeFile toyFiles 15 false true l = (Ok true, [Cut] ++ [Zipped (Text root)])).
  { unfold writeFile. unfold l, N. rewrite W. reflexivity. }
  split; [exact Wf|].
  apply (C45_save_and_open L content toyFiles 15 15 true l root _ [Cut]); [reflexivity|reflexivity| |exact W|apply toy_keeps|exact Wf].
  apply rich_storable. reflexivity.
Qed.

(** * C49 *)

(** A gzipped and a plain file of one text open alike: the same list, or both fail.
    Whatever the plain file fails with, the gzipped one fails with a parse error. *)
Theorem C49_gzip_alike :
  forall {T} {N : Num T} {X : NumText T} {B} (io : fileLib B) c fs p q text limit strict,
    duiker_on c = true -> fs p = Some text -> fs q = Some (gzip io text) ->
    gunzip io (gzip io text) = Some text -> gunzip io text = None -> parseXml io (gzip io text) = None ->
    openList io (S limit) c fs strict q =
    match openList (T := T) io (S limit) c fs strict p with Ok l => Ok l | Err _ => Err ParseError end.
Proof. exact @gzip_open. Qed.
Print Assumptions C49_gzip_alike.

(** With the Duiker Research feature off a gzipped file does not open. *)
Theorem C49_feature_off :
  forall {T} {N : Num T} {X : NumText T} {B} (io : fileLib B) c fs q packed limit strict,
    duiker_on c = false -> fs q = Some packed -> parseXml io packed = None ->
    openList (T := T) io (S limit) c fs strict q = Err ParseError.
Proof. exact @gzip_off. Qed.
Print Assumptions C49_feature_off.

(** Opening a plain file is reading its document, with References loading from the same
    disk, leniently. *)
Theorem C49_plain :
  forall {T} {N : Num T} {X : NumText T} {B} (io : fileLib B) c fs p text root limit strict,
    fs p = Some text -> gunzip io text = None -> parseXml io text = Some root ->
    openList (T := T) io (S limit) c fs strict p = listRead c (loadFrom io limit c fs) strict emptyList root.
Proof. exact @plain_reads. Qed.
Print Assumptions C49_plain.

Example C49_case (L : libm) : let N := ieeeNum L in
  let good := Text (XElem "ProcessList" [("id", "a")] None [XElem "Range" [("inBitDepth", "32f"); ("outBitDepth", "32f")] None []]) in
  let bad := Text (XElem "ProcessList" [("id", "a")] None [XElem "Curve" [] None []]) in
  let fs := fun p => if String.eqb p "good.clf" then Some good else if String.eqb p "good.clfz" then Some (Zipped good)
                     else if String.eqb p "bad.clf" then Some bad else if String.eqb p "bad.clfz" then Some (Zipped bad) else None in
  is_ok (openList toyFiles 1 15 fs true "good.clf") /\
  openList toyFiles 1 15 fs true "good.clfz" = openList toyFiles 1 15 fs true "good.clf" /\
  openList toyFiles 1 15 fs true "bad.clf" = Err UnknownProcessNodeError /\
  openList toyFiles 1 15 fs true "bad.clfz" = Err ParseError /\
  openList toyFiles 1 0 fs true "good.clfz" = Err ParseError.
Proof.
  intros N good bad fs.
  assert (G : is_ok (openList toyFiles 1 15 fs true "good.clf")).
  { rewrite (C49_plain toyFiles 15 fs "good.clf" good (indented (XElem "ProcessList" [("id", "a")] None [XElem "Range" [("inBitDepth", "32f"); ("outBitDepth", "32f")] None []])) 0 true) by reflexivity.
    eexists. reflexivity. }
  split; [exact G|]. repeat split.
Qed.

(** * C50 *)

(** When the list cannot be written, the text cannot be made, or gzip is asked for with
    the feature off, saving fails and the target file is not touched; otherwise the file is
    emptied first, and only at the end holds the new text. *)
Theorem C50_untouched :
  forall {T} {N : Num T} {X : NumText T} {B} (io : fileLib B) c selfContained gz (l : plist T),
    (forall w, listWrite c selfContained l = Err w -> writeFile io c selfContained gz l = (Err w, [])) /\
    (forall root, listWrite c selfContained l = Ok root -> gz = true -> duiker_on c = false ->
       writeFile io c selfContained gz l = (Err UnsupportedExtensionError, [])) /\
    (forall root w, listWrite c selfContained l = Ok root -> gz = false \/ duiker_on c = true -> pretty io root = Err w ->
       writeFile io c selfContained gz l = (Err w, [])).
Proof. exact @save_untouched. Qed.
Print Assumptions C50_untouched.
Theorem C50_emptied_first :
  forall {T} {N : Num T} {X : NumText T} {B} (io : fileLib B) c selfContained gz (l : plist T) root text,
    listWrite c selfContained l = Ok root -> gz = false \/ duiker_on c = true -> pretty io root = Ok text ->
    let packed b := if gz then gzip io b else b in
    exists rest, snd (writeFile io c selfContained gz l) = nothing io :: rest /\
      (accepts io text = true -> fst (writeFile io c selfContained gz l) = Ok true /\ last rest (nothing io) = packed text) /\
      (accepts io text = false -> fst (writeFile io c selfContained gz l) = Err ValueError /\ last rest (nothing io) = packed (nothing io)).
Proof. exact @save_opened. Qed.
Print Assumptions C50_emptied_first.

(** So after a crash in between the file may be empty, and then does not open, although it
    did before. *)
Theorem C50_crash :
  forall {T} {N : Num T} {X : NumText T} {B} (io : fileLib B) c fs path limit strict,
    gunzip io (nothing io) = None -> parseXml io (nothing io) = None ->
    openList (T := T) io (S limit) c (putFile fs path (nothing io)) strict path = Err ParseError.
Proof. exact @crash_unreadable. Qed.
Print Assumptions C50_crash.

Example C50_case (L : libm) : let N := ieeeNum L in
  let old := Text (XElem "ProcessList" [("id", "old")] None []) in
  let fs := putFile (fun _ => None) "a.clf" old in
  let l : plist fl := PList [("id", "new")] [] [] [] in
  let steps := snd (writeFile toyFiles 15 false false l) in
  openList toyFiles 1 15 fs true "a.clf" = Ok (PList [("id", "old")] [] [] [] : plist fl) /\
  crashContents (fs "a.clf") steps = [Some old; Some Cut; Some (Text (XElem "ProcessList" [("id", "new")] None []))] /\
  openList (T := fl) toyFiles 1 15 (putFile fs "a.clf" Cut) true "a.clf" = Err ParseError /\
  writeFile toyFiles 0 false true l = (Err UnsupportedExtensionError, []) /\
  writeFile (T := fl) toyFiles 15 true false (PList [] [] [] [Node (newHeader ANone ANone ANone ANone) (BReference true None)]) = (Err AttributeError, []).
Proof. intros N old fs l steps. repeat split. Qed.

(** * C52 *)

(** A file that refers to a cycle of files does not open, whatever the recursion limit. *)
Theorem C52_cycle :
  forall {T} {N : Num T} {X : NumText T} {B} (io : fileLib B) c fs p q,
    gzipNotXml io -> clos_refl_trans _ (refersTo io fs) q p -> clos_trans _ (refersTo io fs) p p ->
    forall limit strict, exists w, openList (T := T) io limit c fs strict q = Err w.
Proof. exact @cyclic_fails. Qed.
Print Assumptions C52_cycle.

(** When every chain of references from a file ends, the recursion limit does not
    matter if it is large enough; and the file opens if it and each file it reaches hold a
    document that would be readable with its References unresolved. *)
Theorem C52_acyclic :
  forall {T} {N : Num T} {X : NumText T} {B} (io : fileLib B) c fs p,
    Acc (fun q p => refersTo io fs p q) p ->
    exists n, forall m, n <= m -> forall strict, openList (T := T) io m c fs strict p = openList io n c fs strict p.
Proof. exact @acyclic_settles. Qed.
Print Assumptions C52_acyclic.
Theorem C52_acyclic_opens :
  forall {T} {N : Num T} {X : NumText T} {B} (io : fileLib B) c fs p,
    gzipNotXml io -> Acc (fun q p => refersTo io fs p q) p -> fs p <> None ->
    (forall q, clos_refl_trans _ (refersTo io fs) p q -> fs q <> None ->
       exists root, opensAs io c fs q root /\ is_ok (listRead c (fun _ => Ok None) false (emptyList (T := T)) root)) ->
    exists n, forall m, n <= m -> is_ok (openList (T := T) io m c fs false p).
Proof. exact @acyclic_loads. Qed.
Print Assumptions C52_acyclic_opens.

(** Two files that refer to each other, one of them gzipped and through a Group; and a file
    that refers to one without references. *)
Definition refTo (p : string) : xelem :=
  XElem "Reference" [("inBitDepth", "32f"); ("outBitDepth", "32f"); ("path", p)] None [].
Definition docOf (es : list xelem) : content := Text (XElem "ProcessList" [("id", "x")] None es).
Definition loopFiles : disk content := fun p =>
  if String.eqb p "/a.clf" then Some (docOf [refTo "/b.clf"])
  else if String.eqb p "/b.clf" then Some (Zipped (docOf [XElem "Group" [] None [refTo "/a.clf"]]))
  else if String.eqb p "/c.clf" then Some (docOf [refTo "/d.clf"])
  else if String.eqb p "/d.clf" then Some (docOf []) else None.
Example C52_case (L : libm) : let N := ieeeNum L in
  (forall limit strict, exists w, openList (T := fl) toyFiles limit 15 loopFiles strict "/a.clf" = Err w) /\
  Acc (fun q p => refersTo toyFiles loopFiles p q) "/c.clf" /\
  (exists n, forall m, n <= m -> is_ok (openList (T := fl) toyFiles m 15 loopFiles false "/c.clf")).
Proof.
  intro N.
  assert (AB : refersTo toyFiles loopFiles "/a.clf" "/b.clf").
  { eexists _, (refTo "/b.clf"). split; [eexists; split; [reflexivity|left; reflexivity]|]. split; [now left|]. now constructor. }
  assert (BA : refersTo toyFiles loopFiles "/b.clf" "/a.clf").
  { eexists _, (indented (XElem "Group" [] None [refTo "/a.clf"])). split; [eexists; split; [reflexivity|right; eexists; split; reflexivity]|].
    split; [now left|]. apply link_inside with (e := refTo "/a.clf"); [reflexivity|now left|]. now constructor. }
  assert (D : forall q, ~ refersTo toyFiles loopFiles "/d.clf" q).
  { intros q H. apply toy_refers in H as (e & d & [E|E] & Hd & _); [|discriminate]. injection E as <-. destruct Hd. }
  assert (C : forall q, refersTo toyFiles loopFiles "/c.clf" q -> q = "/d.clf").
  { intros q H. apply toy_refers in H as (e & d & [E|E] & Hd & Hl); [|discriminate]. injection E as <-. destruct Hd as [<-|[]].
    inversion Hl as [? ? ? ? _ Hp|? ? ? ? ? Ht]; subst; [|discriminate]. now injection Hp as <-. }
  assert (A : Acc (fun q p => refersTo toyFiles loopFiles p q) "/c.clf").
  { constructor. intros q Hq. rewrite (C q Hq). constructor. intros q' Hq'. now apply D in Hq'. }
  split; [|split; [exact A|]].
  - apply (C52_cycle toyFiles 15 loopFiles "/a.clf" "/a.clf" toy_gzip (rt_refl _ _ _)). apply t_trans with "/b.clf"; now apply t_step.
  - apply (C52_acyclic_opens toyFiles 15 loopFiles "/c.clf" toy_gzip A); [discriminate|].
    intros q Hq _. apply clos_rt_rt1n in Hq. inversion Hq as [|y z Hy Hz]; subst.
    + eexists. split; [eexists; split; [reflexivity|left; reflexivity]|]. eexists. reflexivity.
    + apply C in Hy. subst. inversion Hz as [|y' z' Hy' _]; subst; [|now apply D in Hy'].
      eexists. split; [eexists; split; [reflexivity|left; reflexivity]|]. eexists. reflexivity.
Qed.
