(** Files: gzip and plain (C49), crashes (C50), references (C52). *)
From Coq Require Import List Arith Lia ZArith String Ascii Bool Relations Wellfounded.
From Verif Require Import PBase PFacts PRegistry PXmlRead SpecFiles.
Import ListNotations.
Local Open Scope string_scope.
Local Open Scope list_scope.

Section Links.
  Context {T : Type} {NM : Num T} {X : NumText T}.
  Notation loader := (string -> res (option (plist T))).

  Lemma readInto_listRead c (ld : loader) strict l root :
    listRead c ld strict l root = match readInto c ld strict l root with (l', None) => Ok l' | (_, Some w) => Err w end.
  Proof.
    unfold listRead, readInto. generalize (setListAttrs l (x_attrib root)). induction (x_children root) as [|e t IH]; intro s; [reflexivity|].
    cbn [for_each childrenInto]. destruct (listChild c ld strict s e) as [l'|w]; cbn [bind]; [apply IH|reflexivity].
  Qed.
  Lemma readInto_ext c (ld ld' : loader) strict l root :
    (forall e strict, In e (x_children root) -> readItem c ld strict e = readItem c ld' strict e) ->
    readInto c ld strict l root = readInto c ld' strict l root.
  Proof.
    intro H. unfold readInto. generalize (setListAttrs l (x_attrib root)). revert H.
    induction (x_children root) as [|e t IH]; intros H s; [reflexivity|].
    cbn [childrenInto]. assert (E : listChild c ld strict s e = listChild c ld' strict s e).
    { unfold listChild. destruct s. rewrite (H e strict) by now left. reflexivity. }
    rewrite E. destruct (listChild c ld' strict s e); [|reflexivity]. apply IH. intros e' st He. apply H. now right.
  Qed.

  (** ** The path of a Reference *)
  Lemma dget_dset {A} (d : list (string * A)) k v k' : dget (dset d k v) k' = if String.eqb k' k then Some v else dget d k'.
  Proof. destruct (String.eqb_spec k' k) as [->|Ne]; [apply dget_dset_same|now apply dget_dset_other]. Qed.
  Lemma setAttrs_get (n : node T) at_ k :
    dget (h_attrs (nheader (setAttrs n at_))) k =
    match dget (rev at_) k with Some v => Some (attrValue v) | None => dget (h_attrs (nheader n)) k end.
  Proof.
    unfold setAttrs. induction at_ as [|[a v] t IH] using rev_ind; [reflexivity|].
    rewrite fold_left_app, rev_app_distr. cbn [fold_left rev app dget].
    set (m := fold_left _ t n) in *. destruct m as [h b]. cbn [setAttribute nheader hSetAttr h_attrs] in *. rewrite dget_dset.
    destruct (String.eqb k a); [reflexivity|exact IH].
  Qed.

  Definition isRef (n : node T) : bool := match n with Node _ (BReference _ _) => true | _ => false end.
  Lemma nodeChild_kind c strict (n : node T) e sub n' : nodeChild c strict n e sub = Ok n' -> isRef n' = isRef n /\ isGroup n' = isGroup n.
  Proof.
    unfold nodeChild. destruct (String.eqb _ "Description").
    - intro E. apply Ok_inj in E. subst. destruct n as [h []]; auto.
    - destruct (String.eqb _ "DynamicParameter").
      + destruct (autodesk_on c).
        * intro E. apply Ok_inj in E. subst. destruct (dget _ _); [destruct n as [h []]|]; auto.
        * destruct strict; [discriminate|]. intro E. apply Ok_inj in E. now subst.
      + unfold readChild, arrayChild, imapChild. destruct n as [h []]; cbn [isRef isGroup];
        repeat match goal with
               | |- (if ?b then _ else _) = _ -> _ => destruct b
               | |- bind ?r _ = _ -> _ => destruct r; cbn [bind]; [|discriminate]
               | |- match ?i with INode _ => _ | IElem _ => _ | IUnknown => _ end = _ -> _ => destruct i
               end; intro E; apply Ok_inj in E; subst; auto.
  Qed.
  Lemma children_kind c ld strict ch (n n' : node T) : readChildren c ld strict ch n = Ok n' -> isRef n' = isRef n /\ isGroup n' = isGroup n.
  Proof.
    unfold readChildren. revert n. induction ch as [|e t IH]; intros n; cbn [for_each].
    - intro E. apply Ok_inj in E. now subst.
    - destruct (nodeChild c strict n e _) as [n1|] eqn:E; [|discriminate]. cbn [bind]. intro E'. apply IH in E' as [E1 E2].
      apply nodeChild_kind in E as [E3 E4]. now rewrite E1, E2.
  Qed.
  Lemma setAttrs_kind (n : node T) at_ : isRef (setAttrs n at_) = isRef n /\ isGroup (setAttrs n at_) = isGroup n.
  Proof.
    unfold setAttrs. revert n. induction at_ as [|[k v] t IH]; intro n; [auto|]. cbn [fold_left].
    destruct (IH (setAttribute n k (attrValue v))) as [-> ->]. destruct n as [h []]; auto.
  Qed.
  Lemma ref_children c (ld : loader) strict ch (h : header T) w pl :
    match readChildren c ld strict ch (Node h (BReference w pl)) with
    | Ok n' => exists h', n' = Node h' (BReference w pl) /\ h_attrs h' = h_attrs h
    | Err _ => True
    end.
  Proof.
    unfold readChildren. revert h. induction ch as [|e t IH]; intro h; cbn [for_each]; [eauto|].
    assert (S : match nodeChild c strict (Node h (BReference w pl)) e (readItem c ld false e) with
                | Ok n' => exists h', n' = Node h' (BReference w pl) /\ h_attrs h' = h_attrs h
                | Err _ => True
                end).
    { unfold nodeChild. destruct (String.eqb _ "Description"); [eexists; split; reflexivity|].
      destruct (String.eqb _ "DynamicParameter").
      - destruct (autodesk_on c); [|destruct strict; [exact I|eauto]]. destruct (dget _ _); eexists; split; reflexivity.
      - cbn [readChild]. eauto. }
    destruct (nodeChild c strict _ e _) as [n1|]; cbn [bind]; [|exact I]. destruct S as (h1 & -> & E). specialize (IH h1).
    destruct (for_each _ _ _); [|exact I]. destruct IH as (h2 & -> & E2). exists h2. split; [reflexivity|congruence].
  Qed.

  Definition newRef : node T := Node (newHeader d16f d16f (AStr "") (AStr "")) (BReference false None).
  Lemma attr_bool s : attrValue s = (if String.eqb s "True" then ABool true else if String.eqb s "False" then ABool false else AStr s).
  Proof. reflexivity. Qed.
  Lemma path_link at_ (h : header T) : h_attrs h = h_attrs (nheader (setAttrs newRef at_)) ->
    match linkPath at_ with Some p => resolvePath h = Ok p | None => resolvePath h = Err AttributeError end.
  Proof.
    intro E. unfold resolvePath, pathAttr. rewrite E, !setAttrs_get. unfold linkPath, attributeOf.
    change (dget (h_attrs (nheader newRef)) "path") with (@None aval). change (dget (h_attrs (nheader newRef)) "basePath") with (@None aval).
    unfold pathJoin.
    assert (B : forall o : option string,
       match match o with Some v => Some (attrValue v) | None => None end with Some v => v | None => AStr "" end =
       attrValue (match o with Some v => v | None => "" end)) by (intros []; reflexivity).
    rewrite !B. generalize (match dget (rev at_) "path" with Some v => v | None => "" end).
    generalize (match dget (rev at_) "basePath" with Some v => v | None => "" end). intros b p. rewrite !attr_bool.
    destruct (String.eqb p "True"); [reflexivity|]. destruct (String.eqb p "False"); [reflexivity|]. cbn [orb].
    destruct (startsSlash p); [reflexivity|]. destruct (String.eqb b "True"); [reflexivity|]. destruct (String.eqb b "False"); [reflexivity|].
    reflexivity.
  Qed.

  (** Reading a Reference element. *)
  Lemma read_reference c (ld : loader) strict tag at_ x ch : elementType tag = "Reference" ->
    readItem c ld strict (XElem tag at_ x ch) =
    (let* n := readChildren c ld strict ch (setAttrs newRef at_) in let* n := readInitialize ld n in Ok (INode n)).
  Proof. intro H. rewrite readItem_eq. cbv zeta. rewrite H. reflexivity. Qed.
  Definition newGroup : node T := Node (newHeader d16f d16f (AStr "") (AStr "")) (BGroup []).
  Lemma setAttrs_ref at_ : exists h, setAttrs newRef at_ = Node h (BReference false None).
  Proof.
    unfold setAttrs, newRef. generalize (newHeader (T:=T) d16f d16f (AStr "") (AStr "")). induction at_ as [|[k v] t IH]; intro h; [exists h; reflexivity|].
    cbn [fold_left setAttribute]. apply IH.
  Qed.
  Lemma init_other (ld : loader) (n : node T) : isRef n = false -> readInitialize ld n = Ok n.
  Proof. destruct n as [h []]; try reflexivity. discriminate. Qed.
  Lemma read_group c (ld : loader) strict tag at_ x ch : elementType tag = "Group" ->
    readItem c ld strict (XElem tag at_ x ch) = (let* n := readChildren c ld strict ch (setAttrs newGroup at_) in Ok (INode n)).
  Proof.
    intro H. rewrite readItem_eq. cbv zeta. rewrite H. 
    transitivity (let* n := readChildren c ld strict ch (setAttrs newGroup at_) in let* n := readInitialize ld n in Ok (INode n)); [reflexivity|].
    destruct (readChildren c ld strict ch (setAttrs newGroup at_)) as [n|] eqn:E; [|reflexivity]. cbn [bind].
    rewrite init_other; [reflexivity|]. apply children_kind in E as [-> _]. now destruct (setAttrs_kind newGroup at_) as [-> _].
  Qed.

  (** ** A link that cannot be loaded *)
  Lemma link_type q e : linksTo q e -> elementType (x_tag e) = "Reference" \/ elementType (x_tag e) = "Group".
  Proof. intros []; auto. Qed.
  Lemma link_fails c (ld : loader) q w e : linksTo q e -> ld q = Err w -> forall strict, exists w', readItem c ld strict e = Err w'.
  Proof.
    intros Hl Hq. induction Hl as [tag at_ x ch Ht Hp|tag at_ x ch e Ht Hi Hl IH]; intro strict.
    - rewrite read_reference by exact Ht. destruct (setAttrs_ref at_) as [h Eh].
      pose proof (ref_children c ld strict ch h false None) as R. rewrite Eh.
      destruct (readChildren c ld strict ch (Node h (BReference false None))) as [n'|w1]; [|eexists; reflexivity].
      destruct R as (h' & -> & Ea). cbn [bind readInitialize].
      assert (P : resolvePath h' = Ok q).
      { pose proof (path_link at_ h') as P. rewrite Hp in P. apply P. now rewrite Ea, Eh. }
      rewrite P. cbn [bind]. rewrite Hq. eexists. reflexivity.
    - rewrite read_group by exact Ht. destruct (in_split _ _ Hi) as (pre & post & ->).
      unfold readChildren. rewrite for_each_app. destruct (for_each pre _ _) as [n1|w1] eqn:E1; [|eexists; reflexivity].
      cbn [bind for_each].
      assert (G : isGroup n1 = true).
      { apply (children_kind c ld strict pre) in E1 as [_ ->]. now destruct (setAttrs_kind newGroup at_) as [_ ->]. }
      destruct (IH false) as [w' Ew].
      assert (N : nodeChild c strict n1 e (readItem c ld false e) = Err w').
      { unfold nodeChild. destruct (link_type q e Hl) as [Ty|Ty]; rewrite Ty; cbn [String.eqb Ascii.eqb Bool.eqb];
          destruct n1 as [h []]; try discriminate; cbn [readChild]; rewrite Ew; reflexivity. }
      rewrite N. eexists. reflexivity.
  Qed.
  Lemma doc_link_fails c (ld : loader) strict l root q w e : In e (x_children root) -> linksTo q e -> ld q = Err w ->
    snd (readInto c ld strict l root) <> None.
  Proof.
    intros Hi Hl Hq. unfold readInto. generalize (setListAttrs l (x_attrib root)).
    induction (x_children root) as [|d t IH]; intro s; [destruct Hi|]. cbn [childrenInto].
    destruct Hi as [->|Hi].
    - destruct (link_fails c ld q w e Hl Hq strict) as [w' Ew]. unfold listChild. destruct s. rewrite Ew. cbn [bind]. discriminate.
    - destruct (listChild c ld strict s d); [now apply IH|discriminate].
  Qed.

  (** ** Reading depends on the linked files only *)
  Lemma newNode_kind ty n0 : @newNodeOf T NM ty = Some n0 -> (ty = "Reference" /\ n0 = newRef) \/ (ty = "Group" /\ n0 = newGroup) \/ (isRef n0 = false /\ isGroup n0 = false).
  Proof.
    unfold newNodeOf. repeat (match goal with |- (if ?b then _ else _) = _ -> _ => destruct b eqn:? end;
      [intro E; injection E as <-; first [right; right; split; reflexivity|idtac]|]).
    - left. split; [now apply String.eqb_eq|reflexivity].
    - right. left. split; [now apply String.eqb_eq|reflexivity].
    - discriminate.
  Qed.
  Lemma children_ext c (ld ld' : loader) strict ch (n : node T) :
    isGroup n = false \/ Forall (fun e => readItem c ld false e = readItem c ld' false e) ch ->
    readChildren c ld strict ch n = readChildren c ld' strict ch n.
  Proof.
    unfold readChildren. revert n. induction ch as [|e t IH]; intros n H; [reflexivity|]. cbn [for_each].
    assert (E : nodeChild c strict n e (readItem c ld false e) = nodeChild c strict n e (readItem c ld' false e)).
    { destruct H as [H|H]; [|now rewrite (Forall_inv H)]. unfold nodeChild.
      destruct (String.eqb _ _); [reflexivity|]. destruct (String.eqb _ _); [reflexivity|]. now apply readChild_sub. }
    rewrite E. destruct (nodeChild c strict n e (readItem c ld' false e)) as [n1|] eqn:E1; [|reflexivity]. cbn [bind]. apply IH.
    destruct H as [H|H]; [left|right; exact (Forall_inv_tail H)]. apply nodeChild_kind in E1 as [_ ->]. exact H.
  Qed.
  Lemma read_ext c (ld ld' : loader) e : (forall q, linksTo q e -> ld q = ld' q) -> forall strict, readItem c ld strict e = readItem c ld' strict e.
  Proof.
    induction e as [tag at_ x ch IH] using xelem_induction. intros H strict. rewrite !readItem_eq. cbv zeta.
    destruct (inList _ _); [reflexivity|]. destruct (String.eqb _ "Info"); [reflexivity|].
    destruct (String.eqb _ "ProcessNode"); [reflexivity|]. destruct (newNodeOf (elementType tag)) as [n|] eqn:En; [|reflexivity].
    destruct (newNode_kind _ _ En) as [[Ty ->]|[[Ty ->]|[Kr Kg]]].
    - rewrite (children_ext c ld ld'). 2:{ left. now destruct (setAttrs_kind newRef at_) as [_ ->]. }
      destruct (setAttrs_ref at_) as [h Eh]. rewrite Eh. pose proof (ref_children c ld' strict ch h false None) as R.
      destruct (readChildren c ld' strict ch _) as [n'|]; [|reflexivity]. destruct R as (h' & -> & Ea). cbn [bind readInitialize].
      pose proof (path_link at_ h') as P. rewrite Eh in P. cbn [nheader] in P. specialize (P Ea).
      destruct (linkPath at_) as [q|] eqn:El; rewrite P; cbn [bind]; [|reflexivity].
      rewrite (H q); [reflexivity|]. now constructor.
    - rewrite (children_ext c ld ld').
      2:{ right. apply Forall_forall. intros e He. apply (proj1 (Forall_forall _ _) IH e He). intros q Hq. apply H.
          now apply (link_inside q tag at_ x ch e). }
      destruct (readChildren c ld' strict ch _) as [n'|] eqn:Ec; [|reflexivity]. cbn [bind].
      apply children_kind in Ec as [Ec _]. destruct (setAttrs_kind newGroup at_) as [Es _]. rewrite Es in Ec. now rewrite !init_other by exact Ec.
    - destruct (setAttrs_kind n at_) as [Es Eg]. rewrite (children_ext c ld ld') by (left; congruence).
      destruct (readChildren c ld' strict ch _) as [n'|] eqn:Ec; [|reflexivity]. cbn [bind].
      apply children_kind in Ec as [Ec _]. rewrite Es, Kr in Ec. now rewrite !init_other by exact Ec.
  Qed.

  (** ** What is loaded does not matter for success *)
  Fixpoint strip (n : node T) : node T :=
    match n with
    | Node h b =>
        Node h match b with
               | BReference w _ => BReference w None
               | BGroup ps => BGroup (map strip ps)
               | _ => b
               end
    end.
  Definition stripItem (i : item T) : item T := match i with INode n => INode (strip n) | _ => i end.
  Definition resMap {A C} (f : A -> C) (r : res A) : res C := match r with Ok a => Ok (f a) | Err w => Err w end.

  Lemma nodeChild_strip c strict (n : node T) e sub :
    nodeChild c strict (strip n) e (resMap stripItem sub) = resMap strip (nodeChild c strict n e sub).
  Proof.
    unfold nodeChild. destruct (String.eqb _ "Description"); [destruct n as [h []]; reflexivity|].
    destruct (String.eqb _ "DynamicParameter").
    { destruct (autodesk_on c); [destruct (dget _ _); [destruct n as [h []]|]; reflexivity|]. destruct strict; reflexivity. }
    unfold readChild, arrayChild, imapChild. destruct n as [h []]; cbn [strip resMap];
    repeat match goal with
           | |- context [if ?b then _ else _] => destruct b
           | |- bind ?r _ = resMap _ (bind ?r _) => destruct r; cbn [bind]
           end; try reflexivity.
    destruct sub as [i|]; [|reflexivity]. cbn [resMap bind]. destruct i; cbn [stripItem resMap strip]; try reflexivity.
    now rewrite map_app.
  Qed.
  Definition nothingThere : loader := fun _ => Ok None.
  Lemma children_strip c (ld : loader) strict ch : forall n : node T,
    isGroup n = false \/ Forall (fun e => resMap stripItem (readItem c ld false e) = readItem c nothingThere false e) ch ->
    resMap strip (readChildren c ld strict ch n) = readChildren c nothingThere strict ch (strip n).
  Proof.
    unfold readChildren. induction ch as [|e t IH]; intros n H; [reflexivity|]. cbn [for_each].
    assert (E : nodeChild c strict (strip n) e (readItem c nothingThere false e) = resMap strip (nodeChild c strict n e (readItem c ld false e))).
    { rewrite <- nodeChild_strip. destruct H as [H|H]; [|now rewrite (Forall_inv H)]. unfold nodeChild.
      destruct (String.eqb _ _); [reflexivity|]. destruct (String.eqb _ _); [reflexivity|]. apply readChild_sub. destruct n as [h []]; try reflexivity. discriminate. }
    rewrite E. destruct (nodeChild c strict n e (readItem c ld false e)) as [n1|] eqn:E1; [|reflexivity]. cbn [bind resMap]. apply IH.
    destruct H as [H|H]; [left|right; exact (Forall_inv_tail H)]. apply nodeChild_kind in E1 as [_ ->]. exact H.
  Qed.
  Lemma strip_kind (n : node T) : isRef (strip n) = isRef n.
  Proof. destruct n as [h []]; reflexivity. Qed.
  Lemma strip_attrs (n : node T) at_ : strip (setAttrs n at_) = setAttrs (strip n) at_.
  Proof.
    unfold setAttrs. revert n. induction at_ as [|[k v] t IH]; intro n; [reflexivity|]. cbn [fold_left]. rewrite IH. f_equal.
    destruct n as [h []]; reflexivity.
  Qed.
  Lemma new_strip ty n0 : @newNodeOf T NM ty = Some n0 -> strip n0 = n0.
  Proof.
    intro E. destruct (newNode_kind _ _ E) as [[_ ->]|[[_ ->]|[Kr Kg]]]; try reflexivity.
    destruct n0 as [h []]; try reflexivity; discriminate.
  Qed.
  Lemma read_strip c (ld : loader) e : (forall q, linksTo q e -> is_ok (ld q)) -> forall strict,
    resMap stripItem (readItem c ld strict e) = readItem c nothingThere strict e.
  Proof.
    induction e as [tag at_ x ch IH] using xelem_induction. intros H strict. rewrite !readItem_eq. cbv zeta.
    destruct (inList _ _); [reflexivity|]. destruct (String.eqb _ "Info"); [reflexivity|].
    destruct (String.eqb _ "ProcessNode"); [reflexivity|]. destruct (newNodeOf (elementType tag)) as [n|] eqn:En; [|reflexivity].
    assert (C : resMap strip (readChildren c ld strict ch (setAttrs n at_)) = readChildren c nothingThere strict ch (setAttrs n at_)).
    { rewrite children_strip, strip_attrs, (new_strip _ _ En); [reflexivity|].
      destruct (newNode_kind _ _ En) as [[Ty ->]|[[Ty ->]|[Kr Kg]]].
      - left. now destruct (setAttrs_kind newRef at_) as [_ ->].
      - right. apply Forall_forall. intros e He. apply (proj1 (Forall_forall _ _) IH e He). intros q Hq. apply H.
        now apply (link_inside q tag at_ x ch e).
      - left. destruct (setAttrs_kind n at_) as [_ ->]. exact Kg. }
    rewrite <- C. destruct (newNode_kind _ _ En) as [[Ty ->]|[[Ty ->]|[Kr Kg]]].
    - destruct (setAttrs_ref at_) as [h Eh]. rewrite Eh in *. pose proof (ref_children c ld strict ch h false None) as R.
      destruct (readChildren c ld strict ch _) as [n'|]; [|reflexivity]. destruct R as (h' & -> & Ea). cbn [bind resMap strip readInitialize].
      pose proof (path_link at_ h') as P. rewrite Eh in P. cbn [nheader] in P. specialize (P Ea).
      destruct (linkPath at_) as [q|] eqn:El; rewrite P; cbn [bind]; [|reflexivity].
      destruct (H q) as [pl Epl]; [now constructor|]. rewrite Epl. reflexivity.
    - destruct (readChildren c ld strict ch _) as [n'|] eqn:Ec; [|reflexivity]. cbn [bind resMap].
      apply children_kind in Ec as [Ec _]. destruct (setAttrs_kind newGroup at_) as [Es _]. rewrite Es in Ec.
      rewrite !init_other; [reflexivity|now rewrite strip_kind|exact Ec].
    - destruct (setAttrs_kind n at_) as [Es Eg].
      destruct (readChildren c ld strict ch _) as [n'|] eqn:Ec; [|reflexivity]. cbn [bind resMap].
      apply children_kind in Ec as [Ec _]. rewrite Es, Kr in Ec. rewrite !init_other; [reflexivity|now rewrite strip_kind|exact Ec].
  Qed.
  Lemma read_ok c (ld : loader) root : (forall e q, In e (x_children root) -> linksTo q e -> is_ok (ld q)) ->
    forall strict l l', snd (readInto c nothingThere strict l root) = None -> snd (readInto c ld strict l' root) = None.
  Proof.
    intros H strict l l'. unfold readInto. generalize (setListAttrs l (x_attrib root)), (setListAttrs l' (x_attrib root)). revert H.
    induction (x_children root) as [|e t IH]; intros H s s'; [reflexivity|]. cbn [childrenInto].
    assert (S : resMap stripItem (readItem c ld strict e) = readItem c nothingThere strict e) by (apply read_strip; intros q Hq; apply (H e q); [now left|exact Hq]).
    unfold listChild. destruct s, s'. rewrite <- S. destruct (readItem c ld strict e) as [i|]; cbn [bind resMap]; [|discriminate].
    destruct i; cbn [stripItem].
    - destruct (gated c (elementType (x_tag e)) && strict); [discriminate|]. apply IH. intros e' q He. apply H. now right.
    - apply IH. intros e' q He. apply H. now right.
    - destruct strict; [discriminate|]. apply IH. intros e' q He. apply H. now right.
  Qed.
End Links.
