(** filterImageWithCLF: images it cannot read, and its command line. *)
From Coq Require Import Lia ZArith List String Bool.
From Verif Require Import SpecFilterTool PBase.
Import ListNotations.
Local Open Scope string_scope.
Local Open Scope list_scope.

Section FilterMain.
  Context {T : Type} {N : Num T} {X : NumText T}.

  Theorem no_image c (l : plist T) o k e : filterCall c l None o k e <-> e = TRaises ValueError.
  Proof.
    split; [|intros ->; now constructor]. intros [e' E|img tagged f E _]; [|discriminate]. injection E as <-. reflexivity.
  Qed.
  Theorem other_type c (l : plist T) s o k e : o_samples s = SOther -> (filterCall c l (Some s) o k e <-> e = TRaises KeyError).
  Proof.
    intro H. assert (E : readPixelArray (Some s) = Err KeyError) by (unfold readPixelArray; now rewrite H).
    split; [|intros ->; now constructor]. intros [e' E'|img tagged f E' _]; rewrite E in E'; [|discriminate]. injection E' as <-. reflexivity.
  Qed.
  Theorem too_many_bits c (l : plist T) s o k vs b e : o_samples s = SUInt16 vs -> vs <> [] -> o_bits s = Some b -> (16 < b)%Z ->
    (filterCall c l (Some s) o k e <-> e = TRaises ValueError).
  Proof.
    intros H Hv Hb B. assert (E : readPixelArray (Some s) = Err ValueError).
    { unfold readPixelArray. rewrite H, Hb. destruct vs as [|v t]; [congruence|]. cbn [mapM]. unfold readSample at 1, readShift.
      destruct (Z.eqb_spec (16 - b) 0); [lia|]. destruct (Z.ltb_spec (16 - b) 0); [|lia]. reflexivity. }
    split; [|intros ->; now constructor]. intros [e' E'|img tagged f E' _]; rewrite E in E'; [|discriminate]. injection E' as <-. reflexivity.
  Qed.

  Lemma known d : existsb (String.eqb d) ["8i"; "10i"; "12i"; "16i"; "16f"; "32f"] = true <-> knownDepth d.
  Proof.
    unfold knownDepth. rewrite existsb_exists. split; [intros (x & H & E); apply String.eqb_eq in E; now subst x|].
    intro H. exists d. split; [exact H|apply String.eqb_refl].
  Qed.
  Theorem unknown_depth c (l : plist T) s o k e : ~ knownDepth o -> (filterCall c l s (Some o) k e <-> filterCall c l s None k e).
  Proof.
    intro U. assert (D : forall img : image T, outDepthOf img (Some o) = outDepthOf img None).
    { intro img. unfold outDepthOf. destruct (existsb _ _) eqn:E; [|reflexivity]. now apply known in E. }
    assert (S : forall img, setupFor l img (Some o) = setupFor l img None) by (intro img; unfold setupFor; now rewrite D).
    assert (F : forall img f, filterImage c l img (Some o) k f <-> filterImage c l img None k f).
    { intros img f. unfold filterImage, filterSingle. rewrite S. destruct (1 <? k)%nat; [|reflexivity].
      split; intros [r G|G]; first [rewrite S in G|rewrite <- S in G]; first [exact (FMRows _ _ _ _ _ r G)|exact (FMTimeout _ _ _ _ _ G)]. }
    split; intros [x E|img tagged f E G]; try now constructor.
    - rewrite D. apply F in G. now apply (CallRun c l s None k img tagged f).
    - rewrite <- D. apply F in G. now apply (CallRun c l s (Some o) k img tagged f).
  Qed.
  Definition badDepth o := match fo_outBitDepth o with
               | Some d => negb (String.eqb d "") && negb (existsb (String.eqb d) ["8i"; "10i"; "12i"; "16i"; "16f"; "32f"])
               | None => false
               end.
  Lemma bad_is o d : fo_outBitDepth o = Some d -> d <> "" -> ~ knownDepth d -> badDepth o = true.
  Proof.
    intros E N1 N2. unfold badDepth. rewrite E. apply String.eqb_neq in N1. rewrite N1. rewrite <- known in N2. apply not_true_is_false in N2. now rewrite N2.
  Qed.
  Lemma good_is o : (forall d, fo_outBitDepth o = Some d -> d = "" \/ knownDepth d) -> badDepth o = false.
  Proof.
    intro H. unfold badDepth. destruct (fo_outBitDepth o) as [d|]; [|reflexivity]. destruct (H d eq_refl) as [->|K]; [reflexivity|].
    apply known in K. rewrite K. apply andb_false_r.
  Qed.

  Theorem main_bad_depth {B} (io : fileLib B) limit c cpus fs images o d r :
    fo_outBitDepth o = Some d -> d <> "" -> ~ knownDepth d ->
    (filterMain io limit c cpus fs images o r <-> r = (None, TNothing)).
  Proof.
    intros E N1 N2. assert (A : filterArgs io limit c cpus fs o = Ok None).
    { unfold filterArgs. fold (badDepth o). now rewrite (bad_is o d E N1 N2). }
    split; [|intros ->; now constructor]. intros [e E'|E'|l i out w e E' _]; rewrite A in E'; try discriminate. reflexivity.
  Qed.
  Theorem main_missing {B} (io : fileLib B) limit c cpus fs images o r :
    fo_clf o = None \/ fo_input o = None \/ fo_output o = None ->
    filterMain io limit c cpus fs images o r -> fst r = None.
  Proof.
    intros H [e E|E|l i out w e E _]; try reflexivity. exfalso. unfold filterArgs in E. fold (badDepth o) in E. destruct (badDepth o); [discriminate|].
    destruct H as [H|[H|H]].
    - rewrite H in E. cbn [bind] in E. discriminate.
    - destruct (match fo_clf o with None => _ | _ => _ end) as [l'|] in E; [|discriminate]. cbn [bind] in E. rewrite H in E. destruct l' as [l'|]; [|discriminate]. destruct (fo_output o); discriminate.
    - destruct (match fo_clf o with None => _ | _ => _ end) as [l'|] in E; [|discriminate]. cbn [bind] in E. rewrite H in E. destruct l'; discriminate.
  Qed.
  Theorem main_runs {B} (io : fileLib B) limit c cpus fs images o clf input output l r :
    (forall d, fo_outBitDepth o = Some d -> d = "" \/ knownDepth d) ->
    fo_clf o = Some clf -> fo_input o = Some input -> fo_output o = Some output -> openList io limit c fs false clf = Ok l ->
    (filterMain io limit c cpus fs images o r <->
     exists e, filterCall c l (images input) (fo_outBitDepth o) (Z.to_nat (Z.min cpus (Z.max 1 (fo_multithreaded o)))) e /\
               r = (match e with TWrites _ _ => Some output | _ => None end, e)).
  Proof.
    intros G H1 H2 H3 H4.
    assert (A : filterArgs io limit c cpus fs o = Ok (Some (l, input, output, Z.to_nat (Z.min cpus (Z.max 1 (fo_multithreaded o)))))).
    { unfold filterArgs. fold (badDepth o). rewrite (good_is o G), H1, H2, H3, H4. reflexivity. }
    split.
    - intros [e E|E|l' i out w e E C]; rewrite A in E; try discriminate. apply Ok_inj in E. injection E as <- <- <- <-. exists e. split; [exact C|reflexivity].
    - intros (e & C & ->). exact (MainRun io limit c cpus fs images o l input output _ e A C).
  Qed.
  Theorem main_unread {B} (io : fileLib B) limit c cpus fs images o clf x r :
    (forall d, fo_outBitDepth o = Some d -> d = "" \/ knownDepth d) ->
    fo_clf o = Some clf -> openList io limit c fs false clf = Err x ->
    (filterMain io limit c cpus fs images o r <-> r = (None, TRaises x)).
  Proof.
    intros G H1 H4. assert (A : filterArgs io limit c cpus fs o = Err x).
    { unfold filterArgs. fold (badDepth o). rewrite (good_is o G), H1, H4. reflexivity. }
    split; [|intros ->; now constructor]. intros [e E|E|l' i out w e E C]; rewrite A in E; try discriminate. injection E as <-. reflexivity.
  Qed.
End FilterMain.
