(** Documents whose attributes are in another order are read alike. *)
From Coq Require Import List String Ascii ZArith Permutation.
From Verif Require PMeta.
From Verif Require Import SpecWritten SpecSpelling PBase PFacts PXmlRead PSpelling PSpellingRead PWritten.
Import ListNotations.
Local Open Scope string_scope.
Local Open Scope list_scope.

Lemma reordered_parts e e' : reordered e e' -> x_tag e = x_tag e' /\ (forall k, dget (x_attrib e) k = dget (x_attrib e') k) /\ x_text e = x_text e' /\ Forall2 reordered (x_children e) (x_children e').
Proof. intros [tag at_ at' x ch ch' N P C]. cbn. repeat split; [|exact C]. now apply dget_perm. Qed.

Section Order.
  Context {T : Type} {NM : Num T} {X : NumText T}.

  Definition sameHead (h h' : header T) : Prop :=
    (forall k, dget (h_attrs h) k = dget (h_attrs h') k) /\ h_vals h = h_vals h' /\ h_dyn h = h_dyn h' /\ h_elems h = h_elems h'.
  Inductive twin : node T -> node T -> Prop :=
  | TwinPlain h h' b : sameHead h h' -> twin (Node h b) (Node h' b)
  | TwinGroup h h' ps ps' : Forall2 alike ps ps' -> sameHead h h' -> twin (Node h (BGroup ps)) (Node h' (BGroup ps')).
  Lemma head_settings (h h' : header T) : sameHead h h' -> sameSettings h h'.
  Proof. intros (A & B & C & D). repeat split; [intros; apply A|intros; now rewrite B|now rewrite D]. Qed.
  Lemma twin_alike n n' : twin n n' -> alike n n'.
  Proof. intros [h h' b S|h h' ps ps' F S]; [apply AlikePlain|apply AlikeGroup; [exact F|]]; now apply head_settings. Qed.

  Inductive itemTwin : item T -> item T -> Prop :=
  | TwinNode n n' : alike n n' -> itemTwin (INode n) (INode n')
  | TwinElem x : itemTwin (IElem x) (IElem x)
  | TwinUnknown : itemTwin IUnknown IUnknown.

  Lemma outcome_bind {A B} (R : A -> A -> Prop) (Q : B -> B -> Prop) r r' (f f' : A -> res B) : sameOutcome R r r' -> (forall a a', R a a' -> sameOutcome Q (f a) (f' a')) ->
    sameOutcome Q (bind r f) (bind r' f').
  Proof. destruct r, r'; cbn; intros H F; try contradiction; [now apply F|exact H]. Qed.
  Lemma outcome_refl {A} (R : A -> A -> Prop) r : (forall a, R a a) -> sameOutcome R r r.
  Proof. intro H. destruct r; cbn; auto. Qed.

  Lemma head_flag (h h' : header T) k : sameHead h h' -> flagSet h k = flagSet h' k.
  Proof. intros (A & _). unfold flagSet. now rewrite A. Qed.
  Lemma head_out (h h' : header T) b b' : sameHead h h' -> outIsInteger (Node h b) = outIsInteger (Node h' b').
  Proof. intros (A & _). unfold outIsInteger, getOutBitDepth, getAttribute, nheader. now rewrite A. Qed.
  Lemma head_elem (h h' : header T) e : sameHead h h' -> sameHead (hAddElem h e) (hAddElem h' e).
  Proof. intros (A & B & C & D). unfold hAddElem. repeat split; cbn; [exact A|exact B|exact C|now rewrite D]. Qed.
  Lemma head_dyn (h h' : header T) v : sameHead h h' -> sameHead (hAddDyn h v) (hAddDyn h' v).
  Proof. intros (A & B & C & D). unfold hAddDyn. repeat split; cbn; [exact A|exact B|now rewrite C|exact D]. Qed.
  Lemma head_val (h h' : header T) k v : sameHead h h' -> sameHead (hSetVal h k v) (hSetVal h' k v).
  Proof. intros (A & B & C & D). unfold hSetVal. repeat split; cbn; [exact A|now rewrite B|exact C|exact D]. Qed.
  Lemma twin_elem n n' e : twin n n' -> twin (addElement n e) (addElement n' e).
  Proof. intros [h h' b S|h h' ps ps' F S]; cbn; [apply TwinPlain|apply TwinGroup; [exact F|]]; now apply head_elem. Qed.

  Lemma info_reordered ch ch' : Forall2 reordered ch ch' -> infoRead ch = infoRead ch'.
  Proof.
    induction 1 as [|e e' ch ch' H _ IH]; [reflexivity|]. unfold infoRead in *. cbn [flat_map]. destruct (reordered_parts e e' H) as (E & _ & Tx & _). now rewrite E, Tx, IH.
  Qed.
  Lemma cdl_reordered e e' (v : cdl T) : reordered e e' -> cdlRead e v = cdlRead e' v.
  Proof.
    intro H. destruct (reordered_parts e e' H) as (E & _ & _ & C). unfold cdlRead. rewrite E. destruct (String.eqb _ "sopnode"); [|destruct (String.eqb _ "satnode"); [|reflexivity]].
    - unfold sopRead. eapply for_each_alike; [|exact C]. intros a a' s Ha. destruct (reordered_parts a a' Ha) as (Ea & _ & Ta & _). now rewrite Ea, Ta.
    - unfold satRead. eapply for_each_alike; [|exact C]. intros a a' s Ha. destruct (reordered_parts a a' Ha) as (Ea & _ & Ta & _). now rewrite Ea, Ta.
  Qed.
  Lemma array_reordered e e' (h h' : header T) b raw : reordered e e' -> sameHead h h' -> sameOutcome twin (arrayChild (Node h b) raw e) (arrayChild (Node h' b) raw e').
  Proof.
    intros H S. destruct (reordered_parts e e' H) as (E & A & Tx & C). unfold arrayChild. rewrite (head_out h h' b b S).
    replace (arrayRead (emptyArray raw) e') with (arrayRead (T := T) (emptyArray raw) e) by (unfold arrayRead; now rewrite !A, Tx).
    destruct (arrayRead _ e); cbn [bind sameOutcome]; [|reflexivity]. now apply (twin_elem (Node h b) (Node h' b)), TwinPlain.
  Qed.
  Lemma imap_reordered e e' (h h' : header T) b : reordered e e' -> sameHead h h' -> sameOutcome twin (imapChild (Node h b) e) (imapChild (Node h' b) e').
  Proof.
    intros H S. destruct (reordered_parts e e' H) as (E & A & Tx & C). unfold imapChild.
    replace (imapRead (T := T) e') with (imapRead (T := T) e) by (unfold imapRead; now rewrite !A, Tx).
    destruct (imapRead e); cbn [bind sameOutcome]; [|reflexivity]. now apply (twin_elem (Node h b) (Node h' b)), TwinPlain.
  Qed.
  Lemma params_reordered e e' : reordered e e' -> gammaRead (T := T) (x_attrib e) = gammaRead (x_attrib e') /\ logRead (T := T) (x_attrib e) = logRead (x_attrib e') /\ ecRead (T := T) (x_attrib e) = ecRead (x_attrib e').
  Proof. intro H. destruct (reordered_parts e e' H) as (_ & A & _). unfold gammaRead, logRead, ecRead, attrFloat. now rewrite !A. Qed.

  Ltac plainTwin S := cbn [bind sameOutcome]; first [reflexivity | apply TwinPlain; exact S].
  Lemma readChild_reordered n n' e e' sub sub' : twin n n' -> reordered e e' -> sameOutcome itemTwin sub sub' -> sameOutcome twin (readChild n e sub) (readChild n' e' sub').
  Proof.
    intros [h h' b S|h h' ps ps' F S] H Hs; destruct (reordered_parts e e' H) as (E & A & Tx & C); destruct (params_reordered e e' H) as (G & L & Ec); unfold readChild; rewrite <- ?E, <- ?Tx.
    - destruct b; cbv zeta.
      + destruct (inList _ _); [|now apply TwinPlain]. destruct (floatText _); cbn [bind sameOutcome]; [|reflexivity]. now apply TwinPlain, head_val.
      + destruct (String.eqb _ "Array"); [now apply array_reordered|now apply TwinPlain].
      + destruct (String.eqb _ "Array"); [rewrite (head_flag h h' "rawHalfs" S); now apply array_reordered|]. destruct (String.eqb _ "IndexMap"); [now apply imap_reordered|now apply TwinPlain].
      + destruct (String.eqb _ "Array"); [now apply array_reordered|]. destruct (String.eqb _ "IndexMap"); [now apply imap_reordered|now apply TwinPlain].
      + rewrite (cdl_reordered e e' _ H). destruct (cdlRead _ _); plainTwin S.
      + rewrite (cdl_reordered e e' _ H). destruct (cdlRead _ _); plainTwin S.
      + rewrite G. destruct (String.eqb _ "GammaParams"); [destruct (gammaRead (x_attrib e')); plainTwin S|now apply TwinPlain].
      + rewrite L. destruct (String.eqb _ "LogParams"); [destruct (logRead (x_attrib e')); plainTwin S|now apply TwinPlain].
      + rewrite Ec. destruct (String.eqb _ "ECParams"); [destruct (ecRead (x_attrib e')); plainTwin S|now apply TwinPlain].
      + now apply TwinPlain.
      + eapply outcome_bind; [exact Hs|]. intros i i' [m m' M|x|]; cbn [sameOutcome].
        * apply TwinGroup; [|exact S]. apply Forall2_app; [|now constructor]. assert (I : forall k : node T, alike k k) by (intros [k b]; apply AlikePlain; now repeat split).
          clear - I. induction ps; constructor; auto.
        * now apply TwinPlain, head_elem.
        * now apply TwinPlain.
    - eapply outcome_bind; [exact Hs|]. intros i i' [m m' M|x|]; cbn [sameOutcome].
      + apply TwinGroup; [|exact S]. apply Forall2_app; [exact F|now constructor].
      + now apply TwinGroup; [|apply head_elem].
      + now apply TwinGroup.
  Qed.
  Lemma nodeChild_reordered c strict n n' e e' sub sub' : twin n n' -> reordered e e' -> sameOutcome itemTwin sub sub' -> sameOutcome twin (nodeChild c strict n e sub) (nodeChild c strict n' e' sub').
  Proof.
    intros S H Hs. destruct (reordered_parts e e' H) as (E & A & Tx & _). unfold nodeChild. rewrite <- E, <- Tx, <- A. cbv zeta. destruct (String.eqb _ "Description"); [now apply twin_elem|].
    destruct (String.eqb _ "DynamicParameter"); [|now apply readChild_reordered]. destruct (autodesk_on c); [|destruct strict; [reflexivity|exact S]]. cbn [sameOutcome].
    destruct (dget _ "param"); [|exact S]. destruct S as [h h' b S|h h' ps ps' F S]; [apply TwinPlain|apply TwinGroup; [exact F|]]; now apply head_dyn.
  Qed.
  Lemma setAttrs_reordered n at_ at' : NoDup (map fst at_) -> Permutation at_ at' -> twin (setAttrs n at_) (setAttrs n at').
  Proof.
    intros N P. assert (N' : NoDup (map fst at')) by (apply (Permutation_NoDup (Permutation_map fst P) N)). rewrite !setAttrs_eq. apply TwinPlain. repeat split. intro k. cbn [h_attrs].
    now rewrite !dget_fold, (dget_perm at_ at' N P) by assumption.
  Qed.
  Lemma init_reordered (ld : string -> res (option (plist T))) n n' : twin n n' -> sameOutcome twin (readInitialize ld n) (readInitialize ld n').
  Proof.
    intros [h h' b S|h h' ps ps' F S]; [|now apply TwinGroup]. destruct b; try (now apply TwinPlain). cbn [readInitialize].
    replace (resolvePath h') with (resolvePath h) by (unfold resolvePath, pathAttr; destruct S as (A & _); now rewrite !A).
    destruct (resolvePath h); [|reflexivity]. cbn [bind]. destruct (ld _); [|reflexivity]. now apply TwinPlain.
  Qed.

  Lemma item_reordered c (ld : string -> res (option (plist T))) : forall e e' strict, reordered e e' -> sameOutcome itemTwin (readItem c ld strict e) (readItem c ld strict e').
  Proof.
    intro e. induction e as [tag attrs x ch IH] using xelem_induction. intros e' strict H. inversion H as [? ? at' ? ? ch' N P C]; subst. rewrite !readItem_eq. cbv zeta.
    destruct (inList _ _); [constructor|]. destruct (String.eqb _ "Info"); [rewrite (info_reordered ch ch' C); constructor|]. destruct (String.eqb _ "ProcessNode"); [reflexivity|].
    destruct (newNodeOf _) as [n|]; [|constructor]. apply (outcome_bind twin).
    - unfold readChildren. pose proof (setAttrs_reordered n attrs at' N P) as S. clear - IH C S. revert IH S. generalize (setAttrs n attrs), (setAttrs n at'). clear n.
      induction C as [|a a' ch ch' Ha _ IHC]; intros m m' IH S; [exact S|]. inversion_clear IH as [|? ? I1 I2]. cbn [for_each]. apply (outcome_bind twin).
      + apply nodeChild_reordered; [exact S|exact Ha|]. now apply I1.
      + intros k k' K. now apply IHC.
    - intros m m' S. apply (outcome_bind twin); [now apply init_reordered|]. intros k k' K. constructor. now apply twin_alike.
  Qed.

  Lemma listChild_reordered c (ld : string -> res (option (plist T))) strict l l' e e' : sameList l l' -> reordered e e' -> sameOutcome sameList (listChild c ld strict l e) (listChild c ld strict l' e').
  Proof.
    intros S H. destruct (reordered_parts e e' H) as (E & _). rewrite !listChild_eq, <- E. apply (outcome_bind itemTwin); [now apply item_reordered|].
    destruct l as [at_ vs es ps], l' as [at' vs' es' ps']. destruct S as (A & -> & -> & F). unfold alikeLists in F. cbn [procs_of] in F. intros i i' [n n' M|x|]; cbn [listItems].
    - destruct (gated c _ && strict)%bool; [reflexivity|]. cbn. repeat split; [exact A|]. unfold alikeLists. cbn [procs_of]. apply Forall2_app; [exact F|now constructor].
    - cbn. now repeat split.
    - destruct strict; [reflexivity|]. cbn. now repeat split.
  Qed.
  Lemma listAttrs_reordered l at_ at' : NoDup (map fst at_) -> Permutation at_ at' -> sameList (setListAttrs l at_) (setListAttrs (T := T) l at').
  Proof.
    intros N P. assert (N' : NoDup (map fst at')) by (apply (Permutation_NoDup (Permutation_map fst P) N)). destruct l as [d vs es ps]. cbn. repeat split.
    - intro k. pose proof (dget_fold (fun v : string => v) at_ N d k) as Q. pose proof (dget_fold (fun v : string => v) at' N' d k) as Q'. cbn beta in Q, Q'. now rewrite Q, Q', (dget_perm at_ at' N P).
    - unfold alikeLists. cbn [procs_of]. assert (I : forall k : node T, alike k k) by (intros [k b]; apply AlikePlain; now repeat split). induction ps; constructor; auto.
  Qed.
  Lemma list_reordered c (ld : string -> res (option (plist T))) strict l e e' : reordered e e' -> sameOutcome sameList (listRead c ld strict l e) (listRead c ld strict l e').
  Proof.
    intros [tag at_ at' x ch ch' N P C]. unfold listRead. cbn [x_attrib x_children]. pose proof (listAttrs_reordered l at_ at' N P) as S. revert S. generalize (setListAttrs l at_), (setListAttrs l at'). clear l N P.
    induction C as [|a a' ch ch' Ha _ IH]; intros l l' S; [exact S|]. cbn [for_each]. apply (outcome_bind sameList); [now apply listChild_reordered|]. intros k k' K. now apply IH.
  Qed.
  Definition sameEnd (r r' : plist T * option exn) : Prop := match snd r, snd r' with None, None => sameList (fst r) (fst r') | Some w, Some w' => w = w' | _, _ => False end.
  Lemma into_reordered c (ld : string -> res (option (plist T))) strict l e e' : reordered e e' -> sameEnd (readInto c ld strict l e) (readInto c ld strict l e').
  Proof.
    intros [tag at_ at' x ch ch' N P C]. unfold readInto. cbn [x_attrib x_children]. pose proof (listAttrs_reordered l at_ at' N P) as S. revert S. generalize (setListAttrs l at_), (setListAttrs l at'). clear l N P.
    induction C as [|a a' ch ch' Ha _ IH]; intros l l' S; [exact S|]. cbn [childrenInto]. pose proof (listChild_reordered c ld strict l l' a a' S Ha) as K.
    destruct (listChild c ld strict l a), (listChild c ld strict l' a'); cbn in K; try contradiction; [now apply IH|exact K].
  Qed.
End Order.

Section Files.
  Context {T : Type} {NM : Num T} {X : NumText T} (zip : string -> string) (unzip : string -> option string).

  Lemma reordered_opens limit c (fs : disk string) strict p p' t t' e e' :
    fs p = Some t -> fs p' = Some t' -> unzip t = None -> unzip t' = None ->
    documentSpelled e t -> documentSpelled e' t' -> namespacesOk e -> namespacesOk e' -> reordered (bare e) (bare e') ->
    sameOutcome sameList (openList (T := T) (textFiles zip unzip) limit c fs strict p) (openList (textFiles zip unzip) limit c fs strict p').
  Proof.
    intros F F' U U' D D' N N' B. unfold openList. destruct limit as [|limit]; [reflexivity|]. cbn [readFile]. rewrite F, F'. cbn [gunzip parseXml textFiles]. rewrite U, U', (spelled_parse e t D), (spelled_parse e' t' D').
    assert (K : forall e t, documentSpelled e t -> namespacesOk e -> sameTypes (inNamespace "" e) (bare e)).
    { intros x s (d & b & r & a & _ & _ & E & _) O. apply namespace_same; [exact (proj1 spelled_names x r E)|exact O|intros []]. }
    set (ld := fun p => match fs p with None => _ | Some _ => _ end).
    rewrite (into_same c ld strict _ _ emptyList (K e t D N)), (into_same c ld strict _ _ emptyList (K e' t' D' N')). pose proof (into_reordered c ld strict emptyList _ _ B) as S. unfold sameEnd in S.
    destruct (readInto c ld strict emptyList (bare e)) as [l [w|]], (readInto c ld strict emptyList (bare e')) as [l' [w'|]]; cbn in S |- *; try contradiction; destruct (duiker_on c); exact S.
  Qed.
End Files.

Section Colours.
  Context {T : Type} {NM : Num T} {X : NumText T}.
  Lemma reordered_colours c (ld : string -> res (option (plist T))) strict l0 e e' : reordered e e' ->
    sameOutcome (fun l l' => sameList l l' /\ forall values st, listProcess c l values st = listProcess c l' values st) (listRead c ld strict l0 e) (listRead c ld strict l0 e').
  Proof.
    intro H. pose proof (list_reordered c ld strict l0 e e' H) as S. destruct (listRead c ld strict l0 e) as [l|], (listRead c ld strict l0 e') as [l'|]; cbn in S |- *; try exact S.
    split; [exact S|]. intros values st. apply PMeta.list_alike. destruct l, l'. apply S.
  Qed.
End Colours.
