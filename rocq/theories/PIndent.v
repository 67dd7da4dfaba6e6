(** Line breaks and indentation that printing adds do not matter to reading; saving
    to a file and loading. *)
From Coq Require Import List Arith Lia ZArith String Ascii Bool.
From Verif Require Import PBase PChain PNumText PRegistry PXmlRead PXmlWrite SpecFiles PFiles PFilesRead.
Import ListNotations.
Local Open Scope string_scope.
Local Open Scope list_scope.

(** The elements whose text is read. *)
Definition textTypes : list string :=
  ["Comment"; "Description"; "InputDescriptor"; "OutputDescriptor"; "minInValue"; "maxInValue"; "minOutValue"; "maxOutValue";
   "Array"; "IndexMap"; "Slope"; "Offset"; "Power"; "Saturation"; "AppRelease"; "Copyright"; "Release"].
Fixpoint atLeaves (e : xelem) : Prop :=
  match e with
  | XElem t _ _ ch =>
      (In (elementType t) textTypes -> ch = []) /\
      (fix all (ch : list xelem) : Prop := match ch with [] => True | c :: ch => atLeaves c /\ all ch end) ch
  end.
Lemma atLeaves_eq t a x ch : atLeaves (XElem t a x ch) <-> (In (elementType t) textTypes -> ch = []) /\ Forall atLeaves ch.
Proof.
  cbn [atLeaves]. assert (E : (fix all (ch : list xelem) : Prop := match ch with [] => True | c :: ch => atLeaves c /\ all ch end) ch <-> Forall atLeaves ch).
  { induction ch as [|c ch IH]; [split; [constructor|exact (fun _ => I)]|]. rewrite Forall_cons_iff, IH. reflexivity. }
  rewrite E. reflexivity.
Qed.
Lemma sameTree_eq t a x ch t' a' x' ch' : sameTree (XElem t a x ch) (XElem t' a' x' ch') <->
  t' = t /\ a' = a /\ (ch = [] -> x' = x) /\ Forall2 sameTree ch ch'.
Proof.
  cbn [sameTree].
  assert (E : forall ch ch', (fix all (ch ch' : list xelem) : Prop :=
         match ch, ch' with [], [] => True | c :: ch, c' :: ch' => sameTree c c' /\ all ch ch' | _, _ => False end) ch ch' <-> Forall2 sameTree ch ch').
  { induction ch0 as [|c ch0 IH]; intros [|c' ch0']; split; try solve [constructor|inversion 1|intros []].
    - intros [H1 H2]. constructor; [exact H1|now apply IH].
    - inversion 1; subst. split; [assumption|now apply IH]. }
  rewrite E. reflexivity.
Qed.

Lemma inList_In s l : inList s l = true -> In s l.
Proof. unfold inList. intro H. apply existsb_exists in H as (x & Hx & E). apply String.eqb_eq in E. now subst. Qed.

Lemma Forall_app_mk {A} (P : A -> Prop) l l' : Forall P l -> Forall P l' -> Forall P (l ++ l').
Proof. intros. apply Forall_app. auto. Qed.

Section Indent.
  Context {T : Type} {NM : Num T} {X : NumText T}.

  Lemma same_parts e e' : sameTree e e' -> x_tag e' = x_tag e /\ x_attrib e' = x_attrib e /\ Forall2 sameTree (x_children e) (x_children e').
  Proof. destruct e, e'. rewrite sameTree_eq. cbn. tauto. Qed.
  Lemma same_text e e' : sameTree e e' -> atLeaves e -> In (elementType (x_tag e)) textTypes -> x_text e' = x_text e /\ x_children e = [] /\ x_children e' = [].
  Proof.
    destruct e as [t a x ch], e' as [t' a' x' ch']. rewrite sameTree_eq, atLeaves_eq. cbn. intros (-> & -> & Hx & Hc) [Hl _] Hi.
    specialize (Hl Hi). subst ch. inversion Hc. auto.
  Qed.
  Lemma same_leaf e e' : sameTree e e' -> atLeaves e -> In (elementType (x_tag e)) textTypes -> e' = e.
  Proof.
    intros H L Hi. destruct (same_parts e e' H) as (Et & Ea & _). destruct (same_text e e' H L Hi) as (Ex & E1 & E2).
    destruct e, e'. cbn in *. now subst.
  Qed.
  Lemma children_leaves e : atLeaves e -> Forall atLeaves (x_children e).
  Proof. destruct e. rewrite atLeaves_eq. cbn. tauto. Qed.

  Lemma info_same ch ch' : Forall2 sameTree ch ch' -> Forall atLeaves ch -> infoRead ch' = infoRead ch.
  Proof.
    induction 1 as [|e e' ch ch' H _ IH]; intro L; [reflexivity|]. cbn [infoRead flat_map].
    fold (infoRead ch) (infoRead ch'). rewrite (IH (Forall_inv_tail L)). f_equal.
    destruct (same_parts e e' H) as (Et & _ & _). rewrite Et.
    destruct (inList (elementType (x_tag e)) ["AppRelease"; "Copyright"; "Release"]) eqn:E; [|reflexivity].
    rewrite (same_leaf e e' H (Forall_inv L)); [reflexivity|]. apply inList_In in E. cbn in *. tauto.
  Qed.
  Lemma cdl_loop_same (f : xelem -> cdl T -> res (cdl T)) ch ch' v :
    (forall e e' v, sameTree e e' -> atLeaves e -> f e' v = f e v) ->
    Forall2 sameTree ch ch' -> Forall atLeaves ch -> for_each ch' f v = for_each ch f v.
  Proof.
    intros Hf H. revert v. induction H as [|e e' ch ch' H _ IH]; intros v L; [reflexivity|]. cbn [for_each].
    rewrite (Hf e e' v H (Forall_inv L)). destruct (f e v); [|reflexivity]. cbn [bind]. apply IH. exact (Forall_inv_tail L).
  Qed.
  Lemma cdl_same e e' (v : cdl T) : sameTree e e' -> atLeaves e -> cdlRead e' v = cdlRead e v.
  Proof.
    intros H L. unfold cdlRead. destruct (same_parts e e' H) as (Et & _ & Hc). rewrite Et. pose proof (children_leaves e L) as Lc.
    destruct (String.eqb _ "sopnode").
    - unfold sopRead. apply cdl_loop_same; [|exact Hc|exact Lc]. intros d d' u Hd Ld. destruct (same_parts d d' Hd) as (Ed & _ & _). rewrite Ed.
      destruct (String.eqb_spec (elementType (x_tag d)) "Slope") as [E|_]; [rewrite (same_leaf d d' Hd Ld); [reflexivity|rewrite E; cbn; tauto]|].
      destruct (String.eqb_spec (elementType (x_tag d)) "Offset") as [E|_]; [rewrite (same_leaf d d' Hd Ld); [reflexivity|rewrite E; cbn; tauto]|].
      destruct (String.eqb_spec (elementType (x_tag d)) "Power") as [E|_]; [rewrite (same_leaf d d' Hd Ld); [reflexivity|rewrite E; cbn; tauto]|reflexivity].
    - destruct (String.eqb _ "satnode"); [|reflexivity].
      unfold satRead. apply cdl_loop_same; [|exact Hc|exact Lc]. intros d d' u Hd Ld. destruct (same_parts d d' Hd) as (Ed & _ & _). rewrite Ed.
      destruct (String.eqb_spec (elementType (x_tag d)) "Saturation") as [E|_]; [rewrite (same_leaf d d' Hd Ld); [reflexivity|rewrite E; cbn; tauto]|reflexivity].
  Qed.

  Lemma nodeChild_same c strict (n : node T) e e' sub : sameTree e e' -> atLeaves e -> nodeChild c strict n e' sub = nodeChild c strict n e sub.
  Proof.
    intros H L. destruct (same_parts e e' H) as (Et & Ea & _). pose proof (same_leaf e e' H L) as Lf.
    unfold nodeChild. rewrite Et, Ea.
    destruct (String.eqb_spec (elementType (x_tag e)) "Description") as [E|_].
    { rewrite Lf; [reflexivity|rewrite E; cbn; tauto]. }
    destruct (String.eqb (elementType (x_tag e)) "DynamicParameter"); [reflexivity|].
    unfold readChild. rewrite Et, Ea. destruct n as [h []]; try reflexivity.
    - destruct (inList (elementType (x_tag e)) rangeLimits) eqn:E; [|reflexivity]. apply inList_In in E.
      rewrite Lf; [reflexivity|]. cbn in *. tauto.
    - destruct (String.eqb_spec (elementType (x_tag e)) "Array") as [E|_]; [|reflexivity]. rewrite Lf; [reflexivity|rewrite E; cbn; tauto].
    - destruct (String.eqb_spec (elementType (x_tag e)) "Array") as [E|_]; [rewrite Lf; [reflexivity|rewrite E; cbn; tauto]|].
      destruct (String.eqb_spec (elementType (x_tag e)) "IndexMap") as [E|_]; [|reflexivity]. rewrite Lf; [reflexivity|rewrite E; cbn; tauto].
    - destruct (String.eqb_spec (elementType (x_tag e)) "Array") as [E|_]; [rewrite Lf; [reflexivity|rewrite E; cbn; tauto]|].
      destruct (String.eqb_spec (elementType (x_tag e)) "IndexMap") as [E|_]; [|reflexivity]. rewrite Lf; [reflexivity|rewrite E; cbn; tauto].
    - now rewrite (cdl_same e e' _ H L).
    - now rewrite (cdl_same e e' _ H L).
  Qed.

  Lemma item_same c (ld : string -> res (option (plist T))) e : forall e' strict, sameTree e e' -> atLeaves e ->
    readItem c ld strict e' = readItem c ld strict e.
  Proof.
    induction e as [t a x ch IH] using xelem_induction. intros [t' a' x' ch'] strict H L.
    pose proof H as H0. rewrite sameTree_eq in H. destruct H as (-> & -> & Hx & Hc). pose proof L as L0. rewrite atLeaves_eq in L. destruct L as [Hl Lc].
    rewrite !readItem_eq. cbv zeta.
    destruct (inList (elementType t) commentKinds) eqn:E.
    { rewrite Hx; [reflexivity|]. apply Hl. apply inList_In in E. cbn in *. tauto. }
    destruct (String.eqb _ "Info"); [now rewrite (info_same ch ch' Hc Lc)|]. destruct (String.eqb _ "ProcessNode"); [reflexivity|].
    destruct (newNodeOf (elementType t)) as [n|]; [|reflexivity]. f_equal. unfold readChildren. generalize (setAttrs n a).
    clear - IH Hc Lc. induction Hc as [|e e' ch ch' H _ IHc]; intro n; [reflexivity|]. cbn [for_each].
    rewrite (nodeChild_same c strict n e e') by (exact H || exact (Forall_inv Lc)).
    rewrite (Forall_inv IH e' false H (Forall_inv Lc)).
    destruct (nodeChild c strict n e _); [|reflexivity]. cbn [bind]. apply IHc; [exact (Forall_inv_tail IH)|exact (Forall_inv_tail Lc)].
  Qed.
  Lemma list_same c (ld : string -> res (option (plist T))) strict l root root' : sameTree root root' -> Forall atLeaves (x_children root) ->
    listRead c ld strict l root' = listRead c ld strict l root.
  Proof.
    intros H L. destruct (same_parts root root' H) as (_ & Ea & Hc). unfold listRead. rewrite Ea. generalize (setListAttrs l (x_attrib root)).
    revert L. induction Hc as [|e e' ch ch' H' _ IH]; intros L s; [reflexivity|]. cbn [for_each].
    assert (E : listChild c ld strict s e' = listChild c ld strict s e).
    { unfold listChild. destruct s. rewrite (item_same c ld e e' strict H' (Forall_inv L)). destruct (same_parts e e' H') as (-> & _ & _). reflexivity. }
    rewrite E. destruct (listChild c ld strict s e); [|reflexivity]. cbn [bind]. apply IH. exact (Forall_inv_tail L).
  Qed.

  (** ** Written documents *)
  Lemma leaf_leaves k x : atLeaves (leaf k x).
  Proof. unfold leaf. apply atLeaves_eq. auto. Qed.
  Lemma noChildren_leaves t a x : atLeaves (XElem t a x []).
  Proof. apply atLeaves_eq. auto. Qed.
  Lemma plelem_leaves p : atLeaves (plelemWrite p).
  Proof.
    destruct p as [k x|cs]; cbn [plelemWrite]; [apply leaf_leaves|]. apply atLeaves_eq. split; [cbn; intuition discriminate|].
    apply Forall_forall. intros e He. apply in_map_iff in He as ([k x] & <- & _). apply leaf_leaves.
  Qed.
  Lemma element_leaves c (e : element T) d : elementWrite c e = Ok d -> atLeaves d.
  Proof.
    destruct e as [x|a|m|p]; cbn [elementWrite].
    - intro E. apply Ok_inj in E. subst. apply leaf_leaves.
    - unfold arrayWrite. intro E. repeat match type of E with bind ?r _ = _ => destruct r; cbn [bind] in E; [|discriminate] end.
      apply Ok_inj in E. subst. apply noChildren_leaves.
    - unfold imapWrite. intro E. repeat match type of E with bind ?r _ = _ => destruct r; cbn [bind] in E; [|discriminate] end.
      apply Ok_inj in E. subst. apply noChildren_leaves.
    - intro E. apply Ok_inj in E. subst. apply plelem_leaves.
  Qed.
  Lemma body_leaves (b : body T) : Forall atLeaves (bodyChildren b).
  Proof.
    assert (C : forall v : cdl T, Forall atLeaves (cdlChildren v)).
    { intro v. unfold cdlChildren. repeat apply Forall_cons; [| |apply Forall_nil].
      - apply atLeaves_eq. split; [cbn; intuition discriminate|]. repeat apply Forall_app_mk;
          repeat match goal with |- Forall _ (match ?o with Some _ => _ | None => _ end) => destruct o end;
          repeat apply Forall_cons; try apply Forall_nil; apply leaf_leaves.
      - apply atLeaves_eq. split; [cbn; intuition discriminate|]. destruct (c_sat v); [apply Forall_cons; [apply leaf_leaves|]|]; apply Forall_nil. }
    destruct b; cbn [bodyChildren]; try apply Forall_nil; try apply C;
      try (apply Forall_forall; intros e He; apply in_map_iff in He as (p & <- & _); apply noChildren_leaves).
    apply Forall_cons; [apply noChildren_leaves|apply Forall_nil].
  Qed.
  Lemma header_leaves c tag (h : header T) more e : headerWrite c tag h more = Ok e -> Forall atLeaves more -> Forall atLeaves (x_children e).
  Proof.
    unfold headerWrite. destruct (mapM (elementWrite c) (h_elems h)) as [es|] eqn:E; [|discriminate]. cbn [bind]. intros H M. apply Ok_inj in H. subst.
    cbn [x_children]. repeat apply Forall_app_mk; try exact M.
    - apply Forall_forall. intros e He. apply in_map_iff in He as ([k v] & <- & _). apply leaf_leaves.
    - apply Forall_forall. intros e He. apply in_map_iff in He as (p & <- & _). apply noChildren_leaves.
    - revert es E. induction (h_elems h) as [|d t IH]; intros es E; cbn [mapM] in E; [apply Ok_inj in E; subst; constructor|].
      destruct (elementWrite c d) as [x|] eqn:Ed; [|discriminate]. cbn [bind] in E. destruct (mapM (elementWrite c) t) as [xs|]; [|discriminate].
      apply Ok_inj in E. subst. constructor; [now apply element_leaves in Ed|now apply IH].
  Qed.
  Lemma header_tag c tag (h : header T) more e : headerWrite c tag h more = Ok e -> x_tag e = tag.
  Proof. unfold headerWrite. destruct (mapM _ _); [|discriminate]. cbn [bind]. intro H. apply Ok_inj in H. now subst. Qed.
  Lemma node_leaf e (b : body T) : x_tag e = nodeTag b -> Forall atLeaves (x_children e) -> atLeaves e.
  Proof.
    destruct e as [t a x ch]. cbn [x_tag x_children]. intros -> F. apply atLeaves_eq. split; [|exact F]. intro H. exfalso. destruct b; cbn in H; intuition discriminate.
  Qed.
  Lemma node_leaves c (n : node T) : forall f es, nodeWrite c f n = Ok es -> Forall atLeaves es.
  Proof.
    induction n as [h b HG HR] using node_deep_ind. intros f es.
    assert (L : forall f (ps : list (node T)), Forall (fun p => forall f es, nodeWrite c f p = Ok es -> Forall atLeaves es) ps ->
                forall es, nodesWrite c f ps = Ok es -> Forall atLeaves es).
    { clear. intros f ps H. induction H as [|p t Hp _ IH]; intros es E.
      - rewrite nodesWrite_nil in E. apply Ok_inj in E. subst. constructor.
      - rewrite nodesWrite_cons in E. destruct (nodeWrite c f p) as [e1|] eqn:E1; [|discriminate]. cbn [bind] in E.
        destruct (nodesWrite c f t) as [e2|]; [|discriminate]. cbn [bind] in E. apply Ok_inj in E. subst. apply Forall_app_mk; [eauto|auto]. }
    assert (H1 : forall more e, Forall atLeaves more -> headerWrite c (nodeTag b) h more = Ok e -> atLeaves e).
    { intros more e M E. apply (node_leaf e b); [exact (header_tag _ _ _ _ _ E)|exact (header_leaves _ _ _ _ _ E M)]. }
    assert (D : plainBody b \/ (exists w pl, b = BReference w pl) \/ exists ps, b = BGroup ps) by (destruct b; cbn; eauto).
    destruct D as [P|[(w & pl & ->)|(ps & ->)]].
    - rewrite nodeWrite_plain by exact P. destruct (headerWrite c (nodeTag b) h (bodyChildren b)) as [e|] eqn:E; [|discriminate]. cbn [bind].
      intro K. apply Ok_inj in K. subst. constructor; [|constructor]. apply (H1 _ _ (body_leaves b) E).
    - destruct (match f with Some f => f | None => w end) eqn:Ef.
      + destruct pl as [[a v e ps]|].
        * assert (N : nodeWrite c f (Node h (BReference w (Some (PList a v e ps)))) = nodesWrite c None ps).
          { cbn [nodeWrite]. rewrite Ef. reflexivity. }
          rewrite N. apply L. exact (HR w a v e ps eq_refl).
        * cbn [nodeWrite]. rewrite Ef. discriminate.
      + assert (N : nodeWrite c f (Node h (BReference w pl)) = (let* e := headerWrite c (nodeTag (T := T) (BReference w pl)) h [] in Ok [e])).
        { cbn [nodeWrite]. rewrite Ef. destruct pl; reflexivity. }
        rewrite N. destruct (headerWrite c _ h []) as [e|] eqn:E; [|discriminate]. cbn [bind]. intro K. apply Ok_inj in K. subst.
        constructor; [|constructor]. apply (H1 [] e (Forall_nil _) E).
    - rewrite nodeWrite_group. destruct (headerWrite c _ h []) as [e|] eqn:E; [|discriminate]. cbn [bind].
      destruct (nodesWrite c (Some false) ps) as [ns|] eqn:En; [|discriminate]. cbn [bind]. intro K. destruct e as [t a x cs]. apply Ok_inj in K. subst.
      constructor; [|constructor]. apply (node_leaf _ (BGroup ps)); [exact (header_tag _ _ _ _ _ E)|]. cbn [x_children]. apply Forall_app_mk.
      + exact (header_leaves _ _ _ _ _ E (Forall_nil _)).
      + apply (L (Some false) ps); [exact (HG ps eq_refl)|exact En].
  Qed.
  Lemma list_leaves c f (l : plist T) root : listWrite c f l = Ok root -> Forall atLeaves (x_children root).
  Proof.
    destruct l as [a v e ps]. cbn [listWrite]. destruct (nodesWrite c (Some f) ps) as [ns|] eqn:E; [|discriminate]. cbn [bind]. intro H.
    apply Ok_inj in H. subst. cbn [x_children]. repeat apply Forall_app_mk.
    - apply Forall_forall. intros d Hd. apply in_map_iff in Hd as ([k x] & <- & _). apply leaf_leaves.
    - apply Forall_forall. intros d Hd. apply in_map_iff in Hd as (p & <- & _). apply plelem_leaves.
    - revert ns E. induction ps as [|p t IH]; intros ns E.
      + rewrite nodesWrite_nil in E. apply Ok_inj in E. subst. constructor.
      + rewrite nodesWrite_cons in E. destruct (nodeWrite c (Some f) p) as [e1|] eqn:E1; [|discriminate]. cbn [bind] in E.
        destruct (nodesWrite c (Some f) t) as [e2|]; [|discriminate]. cbn [bind] in E. apply Ok_inj in E. subst. apply Forall_app_mk;
        [now apply node_leaves in E1|now apply IH].
  Qed.
End Indent.

Section Save.
  Context {T : Type} {NM : Num T} {X : NumText T} {O : TextOk T} {B : Type} (io : fileLib B).

  Theorem save_load c c' gz (l : plist T) root b steps fs path limit strict :
    autodesk_on c' = true -> duiker_on c' = true ->
    storableList (loadFrom io limit c' (putFile fs path b)) l ->
    listWrite c false l = Ok root -> keepsDocument io root ->
    writeFile io c false gz l = (Ok true, steps ++ [b]) ->
    openList io (S limit) c' (putFile fs path b) strict path = Ok (keptList l).
  Proof.
    intros Au Du S W (text & root' & Hp & Ha & Hx & Hs & G1 & G2) Wf. unfold writeFile in Wf. rewrite W, Hp, Ha in Wf.
    assert (R : listRead c' (loadFrom io limit c' (putFile fs path b)) strict emptyList root' = Ok (keptList l)).
    { rewrite (list_same _ _ _ _ root root' Hs (list_leaves c false l root W)). now apply (list_back c c'). }
    assert (E : putFile fs path b path = Some b) by (unfold putFile; now rewrite String.eqb_refl).
    assert (Eb : b = if gz then gzip io text else text).
    { destruct gz; [destruct (duiker_on c); [|discriminate]|]; injection Wf as Hl; rewrite app_comm_cons in Hl; now apply app_inj_tail in Hl as [_ <-]. }
    destruct gz; subst b.
    - apply (gzip_reads io c' _ path _ text root' limit strict Du E G2 Hx _ R).
    - rewrite (plain_reads io c' _ path _ root' limit strict E G1 Hx). exact R.
  Qed.
End Save.
