(** Files that spell the same document open as the same list. *)
From Coq Require Import List String Ascii ZArith.
From Verif Require Import SpecSpelling PBase PNumText PXmlRead PXmlText PXmlTree PSpelling.
Import ListNotations.
Local Open Scope string_scope.
Local Open Scope list_scope.

Lemma for_each_alike {A S} (R : A -> A -> Prop) (f : A -> S -> res S) l l' : (forall a a' s, R a a' -> f a s = f a' s) -> Forall2 R l l' ->
  forall s, for_each l f s = for_each l' f s.
Proof.
  intros F H. induction H as [|a a' l l' Ha _ IH]; intro s; [reflexivity|]. cbn [for_each]. rewrite (F a a' s Ha). destruct (f a' s); [apply IH|reflexivity].
Qed.
Lemma same_parts e e' : sameTypes e e' -> elementType (x_tag e) = elementType (x_tag e') /\ x_attrib e = x_attrib e' /\ x_text e = x_text e' /\ Forall2 sameTypes (x_children e) (x_children e').
Proof. intros [tag tag' attrs x ch ch' H1 H2]. now repeat split. Qed.

Section Read.
  Context {T : Type} {NM : Num T} {X : NumText T}.

  Lemma info_same ch ch' : Forall2 sameTypes ch ch' -> infoRead ch = infoRead ch'.
  Proof.
    induction 1 as [|e e' ch ch' H _ IH]; [reflexivity|]. unfold infoRead in *. cbn [flat_map]. destruct (same_parts e e' H) as (E & _ & Tx & _). now rewrite E, Tx, IH.
  Qed.
  Lemma cdl_same e e' (v : cdl T) : sameTypes e e' -> cdlRead e v = cdlRead e' v.
  Proof.
    intro H. destruct (same_parts e e' H) as (E & _ & _ & C). unfold cdlRead. rewrite E. destruct (String.eqb _ "sopnode"); [|destruct (String.eqb _ "satnode"); [|reflexivity]].
    - unfold sopRead. eapply for_each_alike; [|exact C]. intros a a' s Ha. destruct (same_parts a a' Ha) as (Ea & _ & Ta & _). now rewrite Ea, Ta.
    - unfold satRead. eapply for_each_alike; [|exact C]. intros a a' s Ha. destruct (same_parts a a' Ha) as (Ea & _ & Ta & _). now rewrite Ea, Ta.
  Qed.
  Lemma child_same c strict (n : node T) e e' sub : sameTypes e e' -> nodeChild c strict n e sub = nodeChild c strict n e' sub.
  Proof.
    intro H. destruct (same_parts e e' H) as (E & A & Tx & C). unfold nodeChild. rewrite E, Tx, A. f_equal. unfold readChild. rewrite E.
    destruct n as [h []]; try reflexivity; unfold arrayChild, imapChild, arrayRead, imapRead; rewrite ?E, ?A, ?Tx, ?(cdl_same e e' _ H); reflexivity.
  Qed.
  Lemma item_same c (ld : string -> res (option (plist T))) : forall e e' strict, sameTypes e e' -> readItem c ld strict e = readItem c ld strict e'.
  Proof.
    intro e. induction e as [tag attrs x ch IH] using xelem_induction. intros e' strict H. inversion H as [? tag' ? ? ? ch' E C]; subst. rewrite !readItem_eq, E. cbv zeta.
    destruct (inList _ _); [reflexivity|]. destruct (String.eqb _ "Info"); [now rewrite (info_same ch ch' C)|]. destruct (String.eqb _ "ProcessNode"); [reflexivity|].
    destruct (newNodeOf _) as [n|]; [|reflexivity]. f_equal. unfold readChildren. clear - IH C. revert IH. generalize (setAttrs n attrs). induction C as [|a a' ch ch' Ha _ IHC]; intros m IH; [reflexivity|].
    inversion_clear IH as [|? ? I1 I2]. cbn [for_each]. rewrite (I1 a' false Ha), (child_same c strict m a a' _ Ha). destruct (nodeChild c strict m a' _); [|reflexivity]. cbn [bind]. now apply IHC.
  Qed.
  Lemma into_same c (ld : string -> res (option (plist T))) strict e e' l : sameTypes e e' -> readInto c ld strict l e = readInto c ld strict l e'.
  Proof.
    intro H. destruct (same_parts e e' H) as (_ & A & _ & C). unfold readInto. rewrite A. generalize (setListAttrs l (x_attrib e')). clear - C.
    induction C as [|a a' ch ch' Ha _ IH]; intro l; [reflexivity|]. cbn [childrenInto]. replace (listChild c ld strict l a) with (listChild c ld strict l a').
    - destruct (listChild c ld strict l a'); [apply IH|reflexivity].
    - destruct l. unfold listChild. rewrite (item_same c ld a a' strict Ha). destruct (same_parts a a' Ha) as (E & _). now rewrite E.
  Qed.
  Lemma list_same c (ld : string -> res (option (plist T))) strict e e' l : sameTypes e e' -> listRead c ld strict l e = listRead c ld strict l e'.
  Proof.
    intro H. destruct (same_parts e e' H) as (_ & A & _ & C). unfold listRead. rewrite A. eapply for_each_alike; [|exact C].
    intros a a' [at_ vs es ps] Ha. unfold listChild. rewrite (item_same c ld a a' strict Ha). destruct (same_parts a a' Ha) as (E & _). now rewrite E.
  Qed.
End Read.

(** * Namespaces *)

Fixpoint namesOk (e : xelem) : Prop :=
  match e with
  | XElem tag attrs x children => xmlName tag /\ (fix all (ch : list xelem) : Prop := match ch with [] => True | c :: t => namesOk c /\ all t end) children
  end.
Lemma all_forall (P : xelem -> Prop) ch : (fix all (ch : list xelem) : Prop := match ch with [] => True | c :: t => P c /\ all t end) ch -> Forall P ch.
Proof. induction ch as [|c ch IH]; [constructor|]. intros [H1 H2]. constructor; [exact H1|now apply IH]. Qed.
Lemma spelled_names : (forall e l, elemSpelled e l -> namesOk e) /\
  (forall es l, childrenSpelled es l -> (fix all (ch : list xelem) : Prop := match ch with [] => True | c :: t => namesOk c /\ all t end) es).
Proof.
  apply spelled_min.
  - intros tag attrs s children start l body w St _ _ C _. split; [exact (proj1 (start_facts _ _ _ St))|exact C].
  - intros tag attrs start St. split; [exact (proj1 (start_facts _ _ _ St))|exact Logic.I].
  - exact Logic.I.
  - intros. now split.
Qed.
Lemma name_brace tag : xmlName tag -> ~ In "}"%char (chars tag).
Proof.
  intros [H _] I. destruct (chars tag) as [|a t]; [contradiction|]. destruct H as [Ha Ht]. destruct I as [->|I].
  - revert Ha. cbv. intuition discriminate.
  - rewrite Forall_forall in Ht. specialize (Ht _ I). revert Ht. cbv. intuition discriminate.
Qed.
Lemma find_ok attrs uri : Forall (fun kv => fst kv = "xmlns" -> ~ In "}"%char (chars (snd kv))) attrs -> ~ In "}"%char (chars uri) ->
  ~ In "}"%char (chars (match find (fun kv => String.eqb (fst kv) "xmlns") attrs with Some kv => snd kv | None => uri end)).
Proof.
  intros H U. induction H as [|[k v] attrs Hk _ IH]; [exact U|]. cbn [find fst]. destruct (String.eqb_spec k "xmlns"); [now apply Hk|exact IH].
Qed.
Lemma namespace_same e : namesOk e -> namespacesOk e -> forall uri, ~ In "}"%char (chars uri) -> sameTypes (inNamespace uri e) (bare e).
Proof.
  induction e as [tag attrs x ch IH] using xelem_induction. intros [Hn Hc] [Ha Hs] uri U. apply all_forall in Hc, Hs.
  cbn [inNamespace bare]. pose proof (find_ok attrs uri Ha U) as F. revert F. generalize (match find (fun kv => String.eqb (fst kv) "xmlns") attrs with Some kv => snd kv | None => uri end). intros u F. cbv zeta. constructor.
  - destruct (String.eqb u ""); [reflexivity|]. now apply elementType_ns; [|apply name_brace].
  - clear - IH Hc Hs F. induction ch as [|c ch IHc]; [constructor|]. inversion_clear IH; inversion_clear Hc; inversion_clear Hs. constructor; auto.
Qed.

Section Files.
  Context {T : Type} {NM : Num T} {X : NumText T} (zip : string -> string) (unzip : string -> option string).

  Lemma spelled_opens limit c (fs : disk string) strict p p' t t' e e' :
    fs p = Some t -> fs p' = Some t' -> unzip t = None -> unzip t' = None ->
    documentSpelled e t -> documentSpelled e' t' -> bare e = bare e' -> namespacesOk e -> namespacesOk e' ->
    openList (T := T) (textFiles zip unzip) limit c fs strict p = openList (textFiles zip unzip) limit c fs strict p'.
  Proof.
    intros F F' U U' D D' B N N'. unfold openList. replace (readFile (textFiles zip unzip) limit c fs strict emptyList p) with (readFile (T := T) (textFiles zip unzip) limit c fs strict emptyList p'); [reflexivity|].
    destruct limit as [|limit]; [reflexivity|]. cbn [readFile]. rewrite F, F'. cbn [gunzip parseXml textFiles]. rewrite U, U', (spelled_parse e t D), (spelled_parse e' t' D').
    assert (K : forall e t, documentSpelled e t -> namespacesOk e -> sameTypes (inNamespace "" e) (bare e)).
    { intros x s (d & b & r & a & _ & _ & E & _) O. apply namespace_same; [exact (proj1 spelled_names x r E)|exact O|intros []]. }
    set (ld := fun p => match fs p with None => _ | Some _ => _ end).
    rewrite (into_same c ld strict _ _ emptyList (K e t D N)), (into_same c ld strict _ _ emptyList (K e' t' D' N')), B. reflexivity.
  Qed.
End Files.
