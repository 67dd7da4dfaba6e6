(** Reading element trees: the shape of the readers, features, unknown elements,
    tags. *)
From Coq Require Import List Arith Lia ZArith String Ascii Bool.
From Verif Require Import PBase PRegistry SpecXml.
Import ListNotations.
Local Open Scope list_scope.

Lemma xelem_induction (P : xelem -> Prop) :
  (forall tag at_ x ch, Forall P ch -> P (XElem tag at_ x ch)) -> forall e, P e.
Proof.
  intro H. fix IH 1. intros [tag at_ x ch]. apply H.
  induction ch as [|e ch IHch]; constructor; [apply IH|exact IHch].
Qed.

Section Read.
  Context {T : Type} {NM : Num T} {X : NumText T}.

  (** The children of a node, one after the other. *)
  Definition readChildren (c : Z) (ld : string -> res (option (plist T))) (strict : bool) (ch : list xelem) (n : node T) : res (node T) :=
    for_each ch (fun e n => nodeChild c strict n e (readItem c ld false e)) n.

  Lemma readItem_eq c ld strict tag at_ x ch :
    readItem c ld strict (XElem tag at_ x ch) =
    let ty := elementType tag in
    if inList ty commentKinds then Ok (IElem (PEComment ty x))
    else if String.eqb ty "Info" then Ok (IElem (PEInfo (infoRead ch)))
    else if String.eqb ty "ProcessNode" then Err TypeError
    else match newNodeOf ty with
         | None => Ok IUnknown
         | Some n =>
             let* n := readChildren c ld strict ch (setAttrs n at_) in
             let* n := readInitialize ld n in Ok (INode n)
         end.
  Proof.
    cbn [readItem]. cbv zeta. destruct (inList _ _); [reflexivity|]. destruct (String.eqb _ "Info"); [reflexivity|].
    destruct (String.eqb _ "ProcessNode"); [reflexivity|]. destruct (newNodeOf _) as [n|]; [|reflexivity].
    generalize (setAttrs n at_). intro n'. unfold readChildren. revert n'.
    induction ch as [|e ch IH]; intro n'; cbn [for_each]; [reflexivity|].
    destruct (nodeChild c strict n' e _) as [n1|]; [|reflexivity]. cbn [bind]. apply IH.
  Qed.

  Definition bodyOf (n : node T) : body T := match n with Node _ b => b end.
  Definition isGroup (n : node T) : bool := match n with Node _ (BGroup _) => true | _ => false end.
  Lemma readChild_sub (n : node T) e sub sub' : isGroup n = false -> readChild n e sub = readChild n e sub'.
  Proof. destruct n as [h []]; try reflexivity. discriminate. Qed.

  (** A document without DynamicParameter reads the same under all features. *)
  Lemma readItem_features c c' ld strict strict' e : mentions "DynamicParameter" e = false ->
    readItem c ld strict e = readItem c' ld strict' e.
  Proof.
    revert strict strict'. induction e as [tag at_ x ch IH] using xelem_induction. intros strict strict' M.
    rewrite !readItem_eq. cbv zeta. destruct (inList _ _); [reflexivity|]. destruct (String.eqb _ "Info"); [reflexivity|].
    destruct (String.eqb _ "ProcessNode"); [reflexivity|]. destruct (newNodeOf _) as [n|]; [|reflexivity].
    cbn [mentions] in M. apply orb_false_iff in M as [_ M]. f_equal. unfold readChildren. apply for_each_ext.
    intros e n' He. unfold nodeChild.
    assert (Me : mentions "DynamicParameter" e = false).
    { destruct (mentions "DynamicParameter" e) eqn:K; [|reflexivity]. rewrite <- M. symmetry. apply existsb_exists. eauto. }
    assert (D : String.eqb (elementType (x_tag e)) "DynamicParameter" = false).
    { destruct e as [tg ? ? ?]. cbn [mentions x_tag] in *. now apply orb_false_iff in Me as [Me _]. }
    rewrite D. destruct (String.eqb _ "Description"); [reflexivity|]. f_equal.
    apply (proj1 (Forall_forall _ _) IH e He). exact Me.
  Qed.

  (* ------------------------------------------------------------------ *)
  (** * Lists *)

  Definition listItems (l : plist T) (i : item T) (ty : string) (c : Z) (strict : bool) : res (plist T) :=
    match l with
    | PList attrs vals elems procs =>
        match i with
        | INode n => if gated c ty && strict then Err UnsupportedExtensionError else Ok (PList attrs vals elems (procs ++ [n]))
        | IElem x => Ok (PList attrs vals (elems ++ [x]) procs)
        | IUnknown => if strict then Err UnknownProcessNodeError else Ok l
        end
    end.
  Lemma listChild_eq c ld strict l e :
    listChild c ld strict l e = let* i := readItem c ld strict e in listItems l i (elementType (x_tag e)) c strict.
  Proof. destruct l. reflexivity. Qed.

  Lemma unknown_item c ld strict e : inList (elementType (x_tag e)) knownTypes = false -> readItem c ld strict e = Ok IUnknown.
  Proof.
    destruct e as [tag at_ x ch]. cbn [x_tag]. intro H. rewrite readItem_eq. cbv zeta.
    set (ty := elementType tag) in *. clearbody ty. unfold inList, knownTypes in H. cbn [existsb] in H.
    repeat (apply orb_false_iff in H as [? H]).
    unfold inList, commentKinds, newNodeOf. cbn [existsb].
    repeat match goal with K : String.eqb _ _ = false |- _ => rewrite K; clear K end. reflexivity.
  Qed.
  Lemma known_item c ld strict e : readItem c ld strict e = Ok IUnknown -> inList (elementType (x_tag e)) knownTypes = false.
  Proof.
    destruct e as [tag at_ x ch]. cbn [x_tag]. rewrite readItem_eq. cbv zeta. set (ty := elementType tag). clearbody ty.
    destruct (inList ty commentKinds) eqn:C; [discriminate|]. destruct (String.eqb ty "Info") eqn:I; [discriminate|].
    destruct (String.eqb ty "ProcessNode") eqn:P; [discriminate|]. intro H.
    unfold inList, commentKinds in C. cbn [existsb] in C. repeat (apply orb_false_iff in C as [? C]).
    unfold inList, knownTypes. cbn [existsb].
    unfold newNodeOf in H.
    repeat match type of H with
    | context [if String.eqb ty ?k then Some ?n else _] =>
        destruct (String.eqb ty k) eqn:?; [destruct (readChildren _ _ _ _ _); [cbn [bind] in H; destruct (readInitialize _ _); discriminate|discriminate]|]
    end.
    repeat match goal with K : String.eqb _ _ = false |- _ => rewrite K; clear K end. reflexivity.
  Qed.

  Lemma listRead_app c ld strict l root ch ch' : x_children root = ch ++ ch' ->
    listRead c ld strict l root =
    let* l' := for_each ch (fun e l => listChild c ld strict l e) (setListAttrs l (x_attrib root)) in
    for_each ch' (fun e l => listChild c ld strict l e) l'.
  Proof. intro E. unfold listRead. now rewrite E, for_each_app. Qed.

  (** C46 lenient. *)
  Lemma lenient_skips c ld l tag at_ x pre e post : inList (elementType (x_tag e)) knownTypes = false ->
    listRead c ld false l (XElem tag at_ x (pre ++ e :: post)) = listRead c ld false l (XElem tag at_ x (pre ++ post)).
  Proof.
    intro U. unfold listRead. cbn [x_children x_attrib]. rewrite !for_each_app. destruct (for_each pre _ _) as [l'|]; [|reflexivity].
    cbn [bind for_each]. rewrite listChild_eq, (unknown_item _ _ _ _ U). cbn [bind listItems]. destruct l'. reflexivity.
  Qed.
  (** C46 strict: reading stops there, with that error if it got that far. *)
  Lemma strict_rejects c ld l tag at_ x pre e post : inList (elementType (x_tag e)) knownTypes = false ->
    listRead c ld true l (XElem tag at_ x (pre ++ e :: post)) =
    match listRead c ld true l (XElem tag at_ x pre) with
    | Ok _ => Err UnknownProcessNodeError
    | Err w => Err w
    end.
  Proof.
    intro U. unfold listRead. cbn [x_children x_attrib]. rewrite !for_each_app. destruct (for_each pre _ _) as [l'|]; [|reflexivity].
    cbn [bind for_each]. rewrite listChild_eq, (unknown_item _ _ _ _ U). cbn [bind listItems]. destruct l'. reflexivity.
  Qed.

  (** Inside a Group. *)
  Lemma addAttr_group n at_ : isGroup n = true -> isGroup (setAttrs n at_) = true.
  Proof.
    unfold setAttrs. revert n. induction at_ as [|[k v] t IH]; intros n H; [exact H|]. cbn [fold_left]. apply IH.
    destruct n as [h []]; try discriminate. reflexivity.
  Qed.
  Lemma nodeChild_group c strict n e sub n' : isGroup n = true -> nodeChild c strict n e sub = Ok n' -> isGroup n' = true.
  Proof.
    destruct n as [h []]; try discriminate. intros _. unfold nodeChild. destruct (String.eqb _ "Description"); [now intros [= <-]|].
    destruct (String.eqb _ "DynamicParameter").
    - destruct (autodesk_on c); [destruct (dget _ _); now intros [= <-]|]. destruct strict; [discriminate|now intros [= <-]].
    - cbn [readChild]. destruct sub as [[n0|x|]|]; [..|discriminate]; cbn [bind]; now intros [= <-].
  Qed.
  Lemma group_skips c ld strict tag at_ x pre e post : elementType tag = "Group"%string ->
    inList (elementType (x_tag e)) ("DynamicParameter" :: knownTypes)%string = false ->
    readItem c ld strict (XElem tag at_ x (pre ++ e :: post)) = readItem c ld strict (XElem tag at_ x (pre ++ post)).
  Proof.
    intros G U. rewrite !readItem_eq. cbv zeta. rewrite G. cbn [inList commentKinds existsb newNodeOf String.eqb Ascii.eqb Bool.eqb orb].
    f_equal. unfold readChildren. rewrite !for_each_app.
    set (n0 := setAttrs _ _). assert (H0 : isGroup n0 = true) by (apply addAttr_group; reflexivity). clearbody n0.
    destruct (for_each pre _ n0) as [n1|] eqn:E; [|reflexivity]. cbn [bind for_each].
    assert (H1 : isGroup n1 = true).
    { refine (for_each_inv (fun n => isGroup n = true) pre _ n0 n1 _ H0 E). intros y s s' Hs K. exact (nodeChild_group _ _ _ _ _ _ Hs K). }
    cbn [inList existsb] in U. apply orb_false_iff in U as [D U]. unfold nodeChild at 1.
    assert (De : String.eqb (elementType (x_tag e)) "Description" = false).
    { unfold knownTypes in U. cbn [existsb] in U. apply orb_false_iff in U as [_ U]. now apply orb_false_iff in U as [U _]. }
    rewrite De, D. rewrite unknown_item by exact U. destruct n1 as [h []]; try discriminate. reflexivity.
  Qed.

  (* ------------------------------------------------------------------ *)
  (** * Features *)

  Lemma gated_features c ty : gated c ty = true <-> featureMissing c ty.
  Proof.
    unfold gated, inList, featureMissing. rewrite orb_true_iff, !andb_true_iff, !negb_true_iff, String.eqb_eq, existsb_exists. split.
    - intros [[(k & Hk & E) A]|[E D]]; [left|right]; auto. apply String.eqb_eq in E. now subst.
    - intros [[H A]|[E D]]; [left|right]; auto. split; [|exact A]. exists ty. split; [exact H|apply String.eqb_refl].
  Qed.

  (** A strict read refuses the first gated node, if it can be read at all. *)
  Lemma strict_gate c ld l tag at_ x pre e post n : gated c (elementType (x_tag e)) = true ->
    readItem c ld true e = Ok (INode n) ->
    listRead c ld true l (XElem tag at_ x (pre ++ e :: post)) =
    match listRead c ld true l (XElem tag at_ x pre) with
    | Ok _ => Err UnsupportedExtensionError
    | Err w => Err w
    end.
  Proof.
    intros U R. unfold listRead. cbn [x_children x_attrib]. rewrite !for_each_app. destruct (for_each pre _ _) as [l'|]; [|reflexivity].
    cbn [bind for_each]. rewrite listChild_eq, R. cbn [bind]. destruct l'. cbn [listItems]. rewrite U. reflexivity.
  Qed.

  (** Without gated children and DynamicParameter elements strictness only concerns
      unknown elements; the features are not looked at. *)
  Lemma ungated_same c c' ld strict l root :
    Forall (fun e => gated c (elementType (x_tag e)) = false \/ strict = false) (x_children root) ->
    Forall (fun e => gated c' (elementType (x_tag e)) = false \/ strict = false) (x_children root) ->
    mentions "DynamicParameter" root = false ->
    listRead c ld strict l root = listRead c' ld strict l root.
  Proof.
    intros G G' M. unfold listRead. apply for_each_ext. intros e l' He. rewrite !listChild_eq.
    rewrite (readItem_features c c' ld strict strict e).
    - destruct (readItem c' ld strict e) as [i|]; [|reflexivity]. cbn [bind]. destruct l', i; cbn [listItems]; try reflexivity.
      pose proof (proj1 (Forall_forall _ _) G e He) as [H|H]; pose proof (proj1 (Forall_forall _ _) G' e He) as [H'|H']; cbn beta in *; subst;
        rewrite ?andb_false_r, ?H, ?H'; reflexivity.
    - destruct root as [tg a0 x0 ch]. cbn [x_children mentions] in *. apply orb_false_iff in M as [_ M].
      destruct (mentions "DynamicParameter" e) eqn:K; [|reflexivity]. rewrite <- M. symmetry. apply existsb_exists. eauto.
  Qed.

  (** Strict reading under all features against strict reading under some. *)
  Lemma strict_exact c0 c ld l root l' : autodesk_on c0 = true -> duiker_on c0 = true ->
    mentions "DynamicParameter" root = false -> listRead c0 ld true l root = Ok l' ->
    listRead c ld true l root =
    if existsb (fun e => gated c (elementType (x_tag e))) (x_children root) then Err UnsupportedExtensionError else Ok l'.
  Proof.
    intros A D M. destruct root as [tag at_ x ch]. cbn [mentions] in M. apply orb_false_iff in M as [_ M].
    unfold listRead. cbn [x_children x_attrib]. generalize (setListAttrs l at_). clear l.
    induction ch as [|e ch IH]; intros l E; [exact E|]. cbn [existsb] in M. apply orb_false_iff in M as [Me M].
    cbn [for_each] in *. rewrite listChild_eq in *. rewrite (readItem_features c c0 ld true true e Me).
    destruct (readItem c0 ld true e) as [i|] eqn:R; [|discriminate]. cbn [bind] in *.
    assert (G0 : gated c0 (elementType (x_tag e)) = false) by (unfold gated; rewrite A, D; now rewrite !andb_false_r).
    destruct l as [attrs vals elems procs], i as [n|y|]; cbn [listItems] in *.
    - rewrite G0 in E. cbn [andb bind] in E. rewrite andb_true_r. cbn [existsb].
      destruct (gated c (elementType (x_tag e))); [reflexivity|]. cbn [bind orb]. now apply IH.
    - cbn [bind existsb] in *. replace (gated c (elementType (x_tag e))) with false; [now apply IH|].
      symmetry. destruct (gated c (elementType (x_tag e))) eqn:G; [|reflexivity]. exfalso. destruct e as [tg ea ex ech].
      rewrite readItem_eq in R. cbv zeta in R. cbn [x_tag] in G. set (ty := elementType tg) in *. clearbody ty.
      apply gated_features in G as [[H _]|[H _]]; cbn in H;
        repeat (destruct H as [H|H]); try contradiction; subst ty;
        cbn [inList commentKinds existsb newNodeOf String.eqb Ascii.eqb Bool.eqb orb] in R;
        (destruct (readChildren _ _ _ _ _); [cbn [bind] in R; destruct (readInitialize _ _); discriminate|discriminate]).
    - discriminate.
  Qed.

  Lemma strict_features c0 c ld l root l' : autodesk_on c0 = true -> duiker_on c0 = true ->
    mentions "DynamicParameter" root = false -> listRead c0 ld true l root = Ok l' ->
    let refused := exists e, In e (x_children root) /\ featureMissing c (elementType (x_tag e)) in
    (refused -> listRead c ld true l root = Err UnsupportedExtensionError) /\
    (~ refused -> listRead c ld true l root = Ok l').
  Proof.
    intros A D M E refused. rewrite (strict_exact c0 c ld l root l' A D M E). split.
    - intros (e & He & G). apply gated_features in G. replace (existsb _ _) with true; [reflexivity|]. symmetry. apply existsb_exists. eauto.
    - intro N. destruct (existsb _ _) eqn:K; [|reflexivity]. exfalso. apply N. apply existsb_exists in K as (e & He & G).
      apply gated_features in G. now exists e.
  Qed.
  Lemma lenient_features c c' ld l root : mentions "DynamicParameter" root = false ->
    listRead c ld false l root = listRead c' ld false l root.
  Proof. intro M. apply ungated_same; [| |exact M]; apply Forall_forall; auto. Qed.

  (** DynamicParameter elements. *)
  Lemma dynamic_lenient c ld tag at_ x pre e post : autodesk_on c = false ->
    elementType (x_tag e) = "DynamicParameter"%string -> elementType tag <> "Info"%string ->
    readItem c ld false (XElem tag at_ x (pre ++ e :: post)) = readItem c ld false (XElem tag at_ x (pre ++ post)).
  Proof.
    intros A D I. rewrite !readItem_eq. cbv zeta. apply String.eqb_neq in I. rewrite I. destruct (inList _ _); [reflexivity|].
    destruct (String.eqb _ "ProcessNode"); [reflexivity|]. destruct (newNodeOf _) as [n|]; [|reflexivity].
    f_equal. unfold readChildren. rewrite !for_each_app. destruct (for_each pre _ _) as [n1|]; [|reflexivity]. cbn [bind for_each].
    unfold nodeChild at 1. rewrite D, A. reflexivity.
  Qed.
  Lemma dynamic_strict c ld tag at_ x pre e post n0 : autodesk_on c = false ->
    elementType (x_tag e) = "DynamicParameter"%string -> newNodeOf (T := T) (elementType tag) = Some n0 ->
    exists w, readItem c ld true (XElem tag at_ x (pre ++ e :: post)) = Err w /\
      (is_ok (readChildren c ld true pre (setAttrs n0 at_)) -> w = UnsupportedExtensionError).
  Proof.
    intros A D K. rewrite readItem_eq. cbv zeta.
    assert (C : inList (elementType tag) commentKinds = false /\ String.eqb (elementType tag) "Info" = false /\
                String.eqb (elementType tag) "ProcessNode" = false).
    { set (ty := elementType tag) in *. clearbody ty. unfold newNodeOf in K.
      repeat match type of K with context [if String.eqb ty ?k then _ else _] =>
        destruct (String.eqb_spec ty k) as [Ek|]; [rewrite Ek; repeat split; reflexivity|] end. discriminate K. }
    destruct C as (-> & -> & ->). rewrite K. unfold readChildren. rewrite for_each_app.
    destruct (for_each pre _ _) as [n1|w] eqn:E; cbn [bind for_each].
    - unfold nodeChild at 1. rewrite D, A. cbn. eexists. split; reflexivity.
    - exists w. split; [reflexivity|]. intros [y F]. discriminate.
  Qed.

  Lemma dynamic_refused c ld tag at_ x pre e post n : autodesk_on c = false ->
    elementType (x_tag e) = "DynamicParameter"%string -> readItem c ld true (XElem tag at_ x pre) = Ok (INode n) ->
    readItem c ld true (XElem tag at_ x (pre ++ e :: post)) = Err UnsupportedExtensionError.
  Proof.
    intros A D R. rewrite readItem_eq in R. cbv zeta in R.
    destruct (inList _ _); [discriminate|]. destruct (String.eqb _ "Info"); [discriminate|]. destruct (String.eqb _ "ProcessNode"); [discriminate|].
    destruct (newNodeOf (elementType tag)) as [n0|] eqn:K; [|discriminate].
    destruct (readChildren c ld true pre (setAttrs n0 at_)) as [n1|] eqn:E; [|discriminate].
    destruct (dynamic_strict c ld tag at_ x pre e post n0 A D K) as (w & -> & W). f_equal. apply W. rewrite E. eexists. reflexivity.
  Qed.

  (* ------------------------------------------------------------------ *)
  (** * Tags *)

  Lemma afterBrace_none l : ~ In "}"%char l -> afterBrace l = None.
  Proof.
    induction l as [|a l IH]; intro H; [reflexivity|]. cbn. destruct (Ascii.eqb_spec a "}") as [->|]; [exfalso; apply H; now left|].
    apply IH. intro K. apply H. now right.
  Qed.
  Lemma afterBrace_app l r : ~ In "}"%char l -> afterBrace (l ++ "}"%char :: r) = Some r.
  Proof.
    induction l as [|a l IH]; intro H; [reflexivity|]. cbn. destruct (Ascii.eqb_spec a "}") as [->|]; [exfalso; apply H; now left|].
    apply IH. intro K. apply H. now right.
  Qed.
  Lemma elementType_ns ns tag : ~ In "}"%char (chars ns) -> ~ In "}"%char (chars tag) ->
    elementType ("{" ++ ns ++ "}" ++ tag) = elementType tag.
  Proof.
    intros H H'. unfold elementType. rewrite (afterBrace_none (chars tag)) by exact H'. rewrite !chars_app.
    change (chars "{") with ["{"%char]. change (chars "}") with ["}"%char].
    change (["{"%char] ++ chars ns ++ ["}"%char] ++ chars tag) with (("{"%char :: chars ns) ++ "}"%char :: chars tag).
    rewrite afterBrace_app; [reflexivity|]. intros [K|K]; [discriminate|contradiction].
  Qed.
  Lemma removeChar_app c l r : removeChar c (l ++ r) = removeChar c l ++ removeChar c r.
  Proof. apply filter_app. Qed.
  Lemma elementType_insert a b s : s = "-"%string \/ s = "_"%string -> ~ In "}"%char (chars (a ++ b)) ->
    elementType (a ++ s ++ b) = elementType (a ++ b).
  Proof.
    intros Hs H. unfold elementType. rewrite (afterBrace_none _ H). rewrite chars_app in H.
    rewrite (afterBrace_none (chars (a ++ s ++ b))).
    - rewrite !chars_app, !removeChar_app. f_equal. f_equal. destruct Hs as [-> | ->]; reflexivity.
    - rewrite !chars_app. intro K. apply in_app_or in K as [K|K]; [apply H, in_or_app; now left|].
      apply in_app_or in K as [K|K]; [destruct Hs as [-> | ->]; destruct K as [K|[]]; discriminate|apply H, in_or_app; now right].
  Qed.
  Lemma elementType_plain tag : ~ In "}"%char (chars tag) -> ~ In "-"%char (chars tag) -> ~ In "_"%char (chars tag) -> elementType tag = tag.
  Proof.
    intros H1 H2 H3. unfold elementType. rewrite (afterBrace_none _ H1).
    assert (K : forall c l, ~ In c l -> removeChar c l = l).
    { intros c l. induction l as [|a l IH]; intro Hl; [reflexivity|]. cbn. destruct (Ascii.eqb_spec a c) as [->|]; [exfalso; apply Hl; now left|].
      cbn [negb]. f_equal. apply IH. intro Q. apply Hl. now right. }
    rewrite (K "-"%char), (K "_"%char) by assumption. apply text_chars.
  Qed.
  (** Only the type of the tag matters. *)
  Lemma retag c ld strict tag tag' at_ x ch : elementType tag = elementType tag' ->
    readItem c ld strict (XElem tag at_ x ch) = readItem c ld strict (XElem tag' at_ x ch).
  Proof. intro E. rewrite !readItem_eq. now rewrite E. Qed.
  Lemma retag' c ld strict e e' : elementType (x_tag e) = elementType (x_tag e') -> x_attrib e = x_attrib e' -> x_text e = x_text e' ->
    x_children e = x_children e' -> readItem c ld strict e = readItem c ld strict e'.
  Proof. destruct e, e'. cbn. intros E -> -> ->. now apply retag. Qed.
  Lemma readChild_alike (n : node T) e e' sub : elementType (x_tag e) = elementType (x_tag e') -> x_attrib e = x_attrib e' -> x_text e = x_text e' ->
    x_children e = x_children e' -> readChild n e sub = readChild n e' sub.
  Proof.
    intros E A Tx C. unfold readChild. rewrite E. destruct n as [h []]; try reflexivity;
      unfold arrayChild, imapChild, arrayRead, imapRead, cdlRead; rewrite ?E, ?A, ?Tx, ?C; reflexivity.
  Qed.
  Lemma nodeChild_alike c strict n e e' sub : elementType (x_tag e) = elementType (x_tag e') -> x_attrib e = x_attrib e' -> x_text e = x_text e' ->
    x_children e = x_children e' -> nodeChild c strict n e sub = nodeChild c strict n e' sub.
  Proof.
    intros E A Tx C. unfold nodeChild. rewrite E, Tx, A. rewrite (readChild_alike n e e' sub E A Tx C). reflexivity.
  Qed.
  Lemma read_alike c ld strict (l : plist T) e e' root root' pre post :
    elementType (x_tag e) = elementType (x_tag e') -> x_attrib e = x_attrib e' -> x_text e = x_text e' -> x_children e = x_children e' ->
    x_attrib root = x_attrib root' -> x_children root = pre ++ e :: post -> x_children root' = pre ++ e' :: post ->
    readItem c ld strict e = readItem c ld strict e' /\
    listRead c ld strict l root = listRead c ld strict l root' /\
    forall tag at_ x,
      readItem c ld strict (XElem tag at_ x (pre ++ e :: post)) = readItem c ld strict (XElem tag at_ x (pre ++ e' :: post)).
  Proof.
    intros E A Tx C Ar Cr Cr'. split; [|split].
    - now apply retag'.
    - unfold listRead. rewrite Cr, Cr', Ar, !for_each_app. destruct (for_each pre _ _) as [l'|]; [|reflexivity]. cbn [bind for_each].
      rewrite !listChild_eq, E. now rewrite (retag' c ld strict e e').
    - intros tag at_ x. rewrite !readItem_eq. cbv zeta. destruct (inList _ _); [reflexivity|].
      destruct (String.eqb _ "Info").
      { unfold infoRead. rewrite !flat_map_app. cbn [flat_map]. now rewrite E, Tx. }
      destruct (String.eqb _ "ProcessNode"); [reflexivity|]. destruct (newNodeOf _) as [n|]; [|reflexivity]. f_equal.
      unfold readChildren. rewrite !for_each_app. destruct (for_each pre _ _) as [n1|]; [|reflexivity]. cbn [bind for_each].
      rewrite (retag' c ld false e e'), (nodeChild_alike c strict n1 e e') by assumption. reflexivity.
  Qed.
  Lemma not_inList s l : ~ In s l -> inList s l = false.
  Proof.
    intro H. apply Bool.not_true_is_false. intro K. apply H. unfold inList in K. apply existsb_exists in K as (k & Hk & E).
    apply String.eqb_eq in E. now subst k.
  Qed.
  Lemma lenient_skips_unknown c ld (l : plist T) tag at_ x pre e post : ~ In (elementType (x_tag e)) knownTypes ->
    listRead c ld false l (XElem tag at_ x (pre ++ e :: post)) = listRead c ld false l (XElem tag at_ x (pre ++ post)).
  Proof. intro H. now apply lenient_skips, not_inList. Qed.
  Lemma strict_rejects_unknown c ld (l : plist T) tag at_ x pre e post : ~ In (elementType (x_tag e)) knownTypes ->
    listRead c ld true l (XElem tag at_ x (pre ++ e :: post)) =
    match listRead c ld true l (XElem tag at_ x pre) with
    | Ok _ => Err UnknownProcessNodeError
    | Err w => Err w
    end.
  Proof. intro H. now apply strict_rejects, not_inList. Qed.
  Lemma group_skips_unknown c (ld : string -> res (option (plist T))) strict tag at_ x pre e post : elementType tag = "Group"%string ->
    ~ In (elementType (x_tag e)) ("DynamicParameter" :: knownTypes)%string ->
    readItem c ld strict (XElem tag at_ x (pre ++ e :: post)) = readItem c ld strict (XElem tag at_ x (pre ++ post)).
  Proof. intros G H. now apply group_skips, not_inList. Qed.
End Read.
