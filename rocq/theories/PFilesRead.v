(** readFile: gzip and plain files (C49), references (C52), what a crash leaves (C50). *)
From Coq Require Import List Arith Lia ZArith String Ascii Bool Relations.
From Verif Require Import PBase PXmlRead SpecFiles PFiles.
Import ListNotations.
Local Open Scope string_scope.
Local Open Scope list_scope.

(** ** Finitely many links *)
Section Uniform.
  Variable P : nat -> string -> Prop.
  Hypothesis mono : forall n m q, n <= m -> P n q -> P m q.
  Lemma uniform_list (R : xelem -> Prop) (ch : list xelem) (Q : xelem -> string -> Prop) :
    (forall e, In e ch -> exists N, forall q, Q e q -> P N q) -> exists N, forall e q, In e ch -> Q e q -> P N q.
  Proof.
    induction ch as [|e t IH]; intro H; [exists 0; intros e q []|].
    destruct IH as [N HN]; [intros e' He; apply H; now right|]. destruct (H e) as [M HM]; [now left|].
    exists (Nat.max N M). intros e' q [<-|He] Hq; [apply (mono M); [lia|now apply HM]|apply (mono N); [lia|now apply (HN e')]].
  Qed.
  Lemma uniform e : (forall q, linksTo q e -> exists n, P n q) -> exists N, forall q, linksTo q e -> P N q.
  Proof.
    induction e as [tag at_ x ch IH] using xelem_induction. intro H.
    destruct (string_dec (elementType tag) "Group") as [G|G].
    - destruct (uniform_list (fun _ => True) ch (fun e q => linksTo q e)) as [N HN].
      { intros e He. apply (proj1 (Forall_forall _ _) IH e He). intros q Hq. apply H. now apply (link_inside q tag at_ x ch e). }
      exists N. intros q Hq. inversion Hq as [? ? ? ? Ht|? ? ? ? e Ht He Hl]; subst; [rewrite G in Ht; discriminate|now apply (HN e)].
    - destruct (string_dec (elementType tag) "Reference") as [R|R].
      + destruct (linkPath at_) as [p|] eqn:E.
        * destruct (H p) as [n Hn]; [now constructor|]. exists n. intros q Hq. inversion Hq; subst; [|contradiction].
          assert (q = p) by congruence. now subst.
        * exists 0. intros q Hq. inversion Hq; subst; [congruence|contradiction].
      + exists 0. intros q Hq. inversion Hq; subst; contradiction.
  Qed.
End Uniform.

Section Read.
  Context {T : Type} {NM : Num T} {X : NumText T} {B : Type} (io : fileLib B).
  Notation readF := (@readFile T NM X B io).

  Definition loaderOf (limit : nat) (c : Z) (fs : disk B) : string -> res (option (plist T)) :=
    fun p => match fs p with
             | None => Ok None
             | Some _ => match readF limit c fs false emptyList p with (l', None) => Ok (Some l') | (_, Some w) => Err w end
             end.
  Lemma readFile_S limit c fs strict l path b : fs path = Some b ->
    readF (S limit) c fs strict l path =
    let plain := fun l => match parseXml io b with
                          | None => (l, Some ParseError)
                          | Some root => readInto c (loaderOf limit c fs) strict l root
                          end in
    if duiker_on c then
      match gunzip io b with
      | None => plain l
      | Some b' =>
          match parseXml io b' with
          | None => plain l
          | Some root => match readInto c (loaderOf limit c fs) strict l root with (l', None) => (l', None) | (l', Some _) => plain l' end
          end
      end
    else plain l.
  Proof. intro H. cbn [readFile]. rewrite H. reflexivity. Qed.
  Lemma readFile_missing limit c fs strict l path : fs path = None -> readF (S limit) c fs strict l path = (l, Some IOError).
  Proof. intro H. cbn [readFile]. rewrite H. destruct (duiker_on c); reflexivity. Qed.

  (** ** C52: cycles *)
  Definition endless (fs : disk B) (q : string) : Prop :=
    exists p, clos_refl_trans _ (refersTo io fs) q p /\ clos_trans _ (refersTo io fs) p p.
  Lemma endless_step fs q : endless fs q -> exists q', refersTo io fs q q' /\ endless fs q'.
  Proof.
    intros (p & H1 & H2). apply clos_rt_rt1n in H1. destruct H1 as [|q' p S R].
    - apply clos_trans_t1n in H2. inversion H2 as [y S|y z S R]; subst.
      + exists q. split; [exact S|]. exists q. split; [apply rt_refl|now apply t_step].
      + exists y. split; [exact S|]. exists q. split; [|now apply clos_t1n_trans]. apply clos_t1n_trans in R.
        clear - R. induction R; [now apply rt_step|eapply rt_trans; eassumption].
    - exists q'. split; [exact S|]. exists p. split; [now apply clos_rt1n_rt|exact H2].
  Qed.
  Lemma endless_fails c fs : gzipNotXml io -> forall limit q strict l, endless fs q -> snd (readF limit c fs strict l q) <> None.
  Proof.
    intros G limit. induction limit as [|limit IH]; intros q strict l E; [discriminate|].
    destruct (endless_step fs q E) as (q' & (root & e & (b & Eb & Hb) & He & Hl) & E').
    assert (L : exists w, loaderOf limit c fs q' = Err w).
    { destruct (endless_step fs q' E') as (q'' & (root' & e' & (b' & Eb' & _) & _) & _). unfold loaderOf. rewrite Eb'.
      pose proof (IH q' false emptyList E') as F. destruct (readF limit c fs false emptyList q') as [l' [w|]]; [eauto|now destruct F]. }
    destruct L as [w L]. rewrite (readFile_S limit c fs strict l q b Eb). cbv zeta.
    assert (D : forall l, snd (readInto c (loaderOf limit c fs) strict l root) <> None) by (intro l0; now apply (doc_link_fails c _ strict l0 root q' w e)).
    destruct Hb as [Hb|(b' & Hg & Hb)].
    - assert (gunzip io b = None) as -> by (destruct (gunzip io b) as [b'|] eqn:Eg; [apply G in Eg; congruence|reflexivity]).
      rewrite Hb. destruct (duiker_on c); apply D.
    - rewrite (G b b' Hg), Hg, Hb. destruct (duiker_on c); [|discriminate]. specialize (D l).
      destruct (readInto c (loaderOf limit c fs) strict l root) as [l' [w'|]]; [discriminate|now destruct D].
  Qed.
  Theorem cyclic_fails c fs p q : gzipNotXml io -> clos_refl_trans _ (refersTo io fs) q p -> clos_trans _ (refersTo io fs) p p ->
    forall limit strict, exists w, openList io limit c fs strict q = Err w.
  Proof.
    intros G H1 H2 limit strict. unfold openList.
    pose proof (endless_fails c fs G limit q strict emptyList (ex_intro _ p (conj H1 H2))) as F.
    destruct (readF limit c fs strict emptyList q) as [l [w|]]; [eauto|now destruct F].
  Qed.

  (** ** C52: no endless chain *)
  Definition stable c fs (n : nat) (q : string) : Prop :=
    forall m, n <= m -> forall strict l, readF m c fs strict l q = readF n c fs strict l q.
  Lemma stable_mono c fs n m q : n <= m -> stable c fs n q -> stable c fs m q.
  Proof. intros L H k Hk strict l. rewrite (H k), (H m) by lia. reflexivity. Qed.
  Lemma links_uniform (P : nat -> string -> Prop) (fs : disk B) p :
    (forall n m q, n <= m -> P n q -> P m q) -> (forall q, refersTo io fs p q -> exists n, P n q) ->
    exists N, forall q, refersTo io fs p q -> P N q.
  Proof.
    intros M H.
    assert (Doc : forall root, holds io fs p root -> exists N, forall e q, In e (x_children root) -> linksTo q e -> P N q).
    { intros root Hr. apply (uniform_list P M (fun _ => True) (x_children root) (fun e q => linksTo q e)).
      intros e He. apply (uniform P M). intros q Hq. apply H. exists root, e. auto. }
    destruct (fs p) as [b|] eqn:Eb; [|exists 0; intros q (root & e & (b & Eb' & _) & _); congruence].
    assert (A : exists N, forall root e q, parseXml io b = Some root -> In e (x_children root) -> linksTo q e -> P N q).
    { destruct (parseXml io b) as [root|] eqn:Er; [|exists 0; discriminate]. destruct (Doc root) as [N HN]; [exists b; auto|].
      exists N. intros root' e q [= <-]. apply HN. }
    assert (C : exists N, forall b' root e q, gunzip io b = Some b' -> parseXml io b' = Some root -> In e (x_children root) -> linksTo q e -> P N q).
    { destruct (gunzip io b) as [b'|] eqn:Eg; [|exists 0; discriminate].
      destruct (parseXml io b') as [root|] eqn:Er; [|exists 0; intros b1 root e q [= <-]; congruence].
      destruct (Doc root) as [N HN]; [exists b; split; [exact Eb|right; eauto]|].
      exists N. intros b1 root' e q [= <-] Er'. rewrite Er in Er'. injection Er' as <-. apply HN. }
    destruct A as [N HN], C as [N' HN']. exists (Nat.max N N').
    intros q (root & e & (b0 & Eb' & Hb) & He & Hl). rewrite Eb in Eb'. injection Eb' as <-. destruct Hb as [Hb|(b' & Hg & Hb)].
    - apply (M N); [lia|]. now apply (HN root e).
    - apply (M N'); [lia|]. now apply (HN' b' root e).
  Qed.
  Lemma readFile_loader limit limit' c fs p :
    (forall q, refersTo io fs p q -> loaderOf limit c fs q = loaderOf limit' c fs q) ->
    forall strict l, readF (S limit) c fs strict l p = readF (S limit') c fs strict l p.
  Proof.
    intros H strict l. destruct (fs p) as [b|] eqn:Eb; [|now rewrite !readFile_missing].
    rewrite !(readFile_S _ c fs strict l p b Eb). cbv zeta.
    assert (D : forall root, holds io fs p root -> forall l, readInto c (loaderOf limit c fs) strict l root = readInto c (loaderOf limit' c fs) strict l root).
    { intros root Hr l0. apply readInto_ext. intros e st He. apply read_ext. intros q Hq. apply H. exists root, e. auto. }
    assert (Pl : forall l, match parseXml io b with None => (l, Some ParseError) | Some root => readInto c (loaderOf limit c fs) strict l root end =
                           match parseXml io b with None => (l, Some ParseError) | Some root => readInto c (loaderOf limit' c fs) strict l root end).
    { intro l0. destruct (parseXml io b) as [root|] eqn:Er; [|reflexivity]. apply D. exists b. auto. }
    destruct (duiker_on c); [|apply Pl]. destruct (gunzip io b) as [b'|] eqn:Eg; [|apply Pl].
    destruct (parseXml io b') as [root|] eqn:Er; [|apply Pl]. rewrite (D root) by (exists b; split; [exact Eb|right; eauto]).
    destruct (readInto c (loaderOf limit' c fs) strict l root) as [l' [w|]]; [apply Pl|reflexivity].
  Qed.
  Lemma acyclic_stable c fs p : Acc (fun q p => refersTo io fs p q) p -> exists n, stable c fs n p.
  Proof.
    induction 1 as [p _ IH]. destruct (links_uniform (stable c fs) fs p) as [N HN]; [intros; eapply stable_mono; eassumption|exact IH|].
    exists (S N). intros m Hm strict l. destruct m as [|m]; [lia|]. apply readFile_loader. intros q Hq. unfold loaderOf.
    destruct (fs q); [|reflexivity]. rewrite (HN q Hq m) by lia. reflexivity.
  Qed.
  Theorem acyclic_settles c fs p : Acc (fun q p => refersTo io fs p q) p ->
    exists n, forall m, n <= m -> forall strict, openList io m c fs strict p = openList io n c fs strict p.
  Proof. intro H. destruct (acyclic_stable c fs p H) as [n Hn]. exists n. intros m Hm strict. unfold openList. now rewrite (Hn m Hm). Qed.

  Theorem acyclic_loads c fs p : gzipNotXml io -> Acc (fun q p => refersTo io fs p q) p -> fs p <> None ->
    (forall q, clos_refl_trans _ (refersTo io fs) p q -> fs q <> None ->
       exists root, opensAs io c fs q root /\ is_ok (listRead c (fun _ => Ok None) false (emptyList (T := T)) root)) ->
    exists n, forall m, n <= m -> is_ok (openList io m c fs false p).
  Proof.
    intros G A. assert (Main : (forall q, clos_refl_trans _ (refersTo io fs) p q -> fs q <> None ->
       exists root, opensAs io c fs q root /\ is_ok (listRead c (fun _ => Ok None) false (emptyList (T := T)) root)) -> fs p <> None ->
       exists n, forall m l, n <= m -> snd (readF m c fs false l p) = None).
    { induction A as [p _ IH]. intros H Hp.
      destruct (links_uniform (fun n q => fs q = None \/ forall m l, n <= m -> snd (readF m c fs false l q) = None) fs p) as [N HN].
      - intros n m q L [K|K]; [now left|right]. intros k l Hk. apply K. lia.
      - intros q Hq. destruct (fs q) as [b|] eqn:Eb; [|exists 0; now left].
        destruct (IH q Hq) as [n Hn]; [|congruence|exists n; now right].
        intros q' Hq'. apply H. apply rt_trans with q; [now apply rt_step|exact Hq'].
      - exists (S N). intros m l Hm. destruct m as [|m]; [lia|].
        destruct (H p (rt_refl _ _ _) Hp) as (root & (b & Eb & Hb) & Ok0).
        rewrite (readFile_S m c fs false l p b Eb). cbv zeta.
        assert (Al : snd (readInto c (nothingThere (T := T)) false emptyList root) = None).
        { destruct Ok0 as [l0 E0]. rewrite readInto_listRead in E0. change (fun _ : string => Ok None) with (@nothingThere T) in E0.
          destruct (readInto c nothingThere false emptyList root) as [l1 [w|]]; [discriminate|reflexivity]. }
        assert (D : holds io fs p root -> forall l, snd (readInto c (loaderOf m c fs) false l root) = None).
        { intros Hr l0. apply (read_ok c (loaderOf m c fs) root) with (l := emptyList); [|exact Al].
          intros e q He Hq. assert (Rq : refersTo io fs p q) by (exists root, e; auto). unfold loaderOf.
          destruct (HN q Rq) as [K|K]; [rewrite K; eexists; reflexivity|]. destruct (fs q); [|eexists; reflexivity].
          specialize (K m emptyList ltac:(lia)). destruct (readF m c fs false emptyList q) as [l1 [w|]]; [discriminate|eexists; reflexivity]. }
        destruct Hb as [Hb|(Du & b' & Hg & Hb)].
        + assert (gunzip io b = None) as -> by (destruct (gunzip io b) as [b'|] eqn:Eg; [apply G in Eg; congruence|reflexivity]).
          rewrite Hb. assert (Hr : holds io fs p root) by (exists b; auto). destruct (duiker_on c); now apply D.
        + rewrite Du, Hg, Hb. assert (Hr : holds io fs p root) by (exists b; split; [exact Eb|right; eauto]). specialize (D Hr l).
          destruct (readInto c (loaderOf m c fs) false l root) as [l1 [w|]]; [discriminate|reflexivity]. }
    intros Hp H. destruct (Main H Hp) as [n Hn]. exists n. intros m Hm. unfold openList. specialize (Hn m emptyList Hm).
    destruct (readF m c fs false emptyList p) as [l [w|]]; [discriminate|eexists; reflexivity].
  Qed.

  (** ** C49 *)
  Theorem gzip_plain c fs p q b limit strict l : duiker_on c = true -> fs p = Some b -> fs q = Some (gzip io b) ->
    gunzip io (gzip io b) = Some b -> gunzip io b = None -> parseXml io (gzip io b) = None ->
    readF (S limit) c fs strict l q =
    match readF (S limit) c fs strict l p with
    | (l', None) => (l', None)
    | (l', Some _) => (l', Some ParseError)
    end.
  Proof.
    intros Du Ep Eq G1 G2 G3. rewrite (readFile_S limit c fs strict l p b Ep), (readFile_S limit c fs strict l q _ Eq). cbv zeta.
    rewrite Du, G1, G2, G3. destruct (parseXml io b) as [root|]; [|reflexivity].
    destruct (readInto c (loaderOf limit c fs) strict l root) as [l' [w|]]; reflexivity.
  Qed.
  Theorem gzip_open c fs p q b limit strict : duiker_on c = true -> fs p = Some b -> fs q = Some (gzip io b) ->
    gunzip io (gzip io b) = Some b -> gunzip io b = None -> parseXml io (gzip io b) = None ->
    openList io (S limit) c fs strict q =
    match openList io (S limit) c fs strict p with Ok l => Ok l | Err _ => Err ParseError end.
  Proof.
    intros Du Ep Eq G1 G2 G3. unfold openList. rewrite (gzip_plain c fs p q b) by assumption.
    destruct (readF (S limit) c fs strict emptyList p) as [l' [w|]]; reflexivity.
  Qed.
  Theorem gzip_off c fs q b limit strict : duiker_on c = false -> fs q = Some b -> parseXml io b = None ->
    openList io (S limit) c fs strict q = Err ParseError.
  Proof. intros Du Eq G. unfold openList. rewrite (readFile_S limit c fs strict _ q b Eq). cbv zeta. now rewrite Du, G. Qed.
  Theorem plain_reads c fs p b root limit strict : fs p = Some b -> gunzip io b = None -> parseXml io b = Some root ->
    openList io (S limit) c fs strict p =
    listRead c (fun q => match fs q with None => Ok None | Some _ => let* l := openList io limit c fs false q in Ok (Some l) end)
      strict emptyList root.
  Proof.
    intros Ep G E. unfold openList at 1. rewrite (readFile_S limit c fs strict _ p b Ep). cbv zeta. rewrite G, E.
    transitivity (listRead c (loaderOf limit c fs) strict emptyList root).
    - rewrite readInto_listRead. destruct (duiker_on c); destruct (readInto c (loaderOf limit c fs) strict emptyList root) as [l' [w|]]; reflexivity.
    - rewrite !readInto_listRead. erewrite readInto_ext; [reflexivity|]. intros e st He. apply read_ext. intros q Hq. unfold loaderOf, openList.
      destruct (fs q); [|reflexivity]. destruct (readF limit c fs false emptyList q) as [l' [w|]]; reflexivity.
  Qed.
  Theorem gzip_reads c fs p b b' root limit strict : duiker_on c = true -> fs p = Some b -> gunzip io b = Some b' -> parseXml io b' = Some root ->
    forall l, listRead c (fun q => match fs q with None => Ok None | Some _ => let* l := openList io limit c fs false q in Ok (Some l) end)
      strict emptyList root = Ok l -> openList io (S limit) c fs strict p = Ok l.
  Proof.
    intros Du Ep G E l H. unfold openList at 1. rewrite (readFile_S limit c fs strict _ p b Ep). cbv zeta. rewrite Du, G, E.
    assert (H' : listRead c (loaderOf limit c fs) strict emptyList root = Ok l).
    { rewrite <- H, !readInto_listRead. erewrite readInto_ext; [reflexivity|]. intros e st He. apply read_ext. intros q Hq. unfold loaderOf, openList.
      destruct (fs q); [|reflexivity]. destruct (readF limit c fs false emptyList q) as [l' [w|]]; reflexivity. }
    rewrite readInto_listRead in H'. destruct (readInto c (loaderOf limit c fs) strict emptyList root) as [l' [w|]]; [discriminate|].
    exact H'.
  Qed.

  (** ** C50 *)
  Theorem save_untouched c sc gz (l : plist T) :
    (forall w, listWrite c sc l = Err w -> writeFile io c sc gz l = (Err w, [])) /\
    (forall root, listWrite c sc l = Ok root -> gz = true -> duiker_on c = false -> writeFile io c sc gz l = (Err UnsupportedExtensionError, [])) /\
    (forall root w, listWrite c sc l = Ok root -> gz = false \/ duiker_on c = true -> pretty io root = Err w -> writeFile io c sc gz l = (Err w, [])).
  Proof.
    unfold writeFile. repeat split.
    - intros w ->. reflexivity.
    - intros root -> -> ->. reflexivity.
    - intros root w -> H E. rewrite E. destruct gz; [|reflexivity]. destruct H as [H|H]; [discriminate|now rewrite H].
  Qed.
  Theorem save_opened c sc gz (l : plist T) root text :
    listWrite c sc l = Ok root -> gz = false \/ duiker_on c = true -> pretty io root = Ok text ->
    let packed b := if gz then gzip io b else b in
    exists rest, snd (writeFile io c sc gz l) = nothing io :: rest /\
      (accepts io text = true -> fst (writeFile io c sc gz l) = Ok true /\ last rest (nothing io) = packed text) /\
      (accepts io text = false -> fst (writeFile io c sc gz l) = Err ValueError /\ last rest (nothing io) = packed (nothing io)).
  Proof.
    intros E H P packed. unfold writeFile. rewrite E, P.
    destruct gz; [destruct H as [H|H]; [discriminate|rewrite H]|]; destruct (accepts io text); eexists; (split; [reflexivity|]); split;
      intro K; try discriminate; (split; [reflexivity|]); try apply last_last; reflexivity.
  Qed.
  Theorem crash_unreadable c fs path limit strict : gunzip io (nothing io) = None -> parseXml io (nothing io) = None ->
    openList io (S limit) c (putFile fs path (nothing io)) strict path = Err ParseError.
  Proof.
    intros G P. unfold openList. rewrite (readFile_S limit c _ strict _ path (nothing io)).
    - cbv zeta. rewrite G, P. destruct (duiker_on c); reflexivity.
    - unfold putFile. now rewrite String.eqb_refl.
  Qed.
End Read.
