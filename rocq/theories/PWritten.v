(** Reading documents written by hand. *)
From Coq Require Import List String Ascii ZArith Permutation.
From Verif Require Import SpecWritten SpecSpelling PBase PFacts PXmlRead PSpelling PSpellingRead.
Import ListNotations.
Local Open Scope string_scope.
Local Open Scope list_scope.

(** * Dictionaries *)

Lemma dget_in {V} (d : list (string * V)) k v : NoDup (map fst d) -> In (k, v) d -> dget d k = Some v.
Proof.
  induction d as [|[k' v'] d IH]; intros N I; [contradiction|]. inversion_clear N as [|? ? Hn N']. cbn [dget]. destruct I as [E|I].
  - injection E as -> ->. now rewrite String.eqb_refl.
  - destruct (String.eqb_spec k k') as [->|_]; [|now apply IH]. exfalso. apply Hn. now apply (in_map fst) in I.
Qed.
Lemma dget_out {V} (d : list (string * V)) k : ~ In k (map fst d) -> dget d k = None.
Proof.
  induction d as [|[k' v'] d IH]; intro N; [reflexivity|]. cbn [dget]. destruct (String.eqb_spec k k') as [->|_]; [exfalso; apply N; now left|]. apply IH. intro. apply N. now right.
Qed.
Lemma dget_some {V} (d : list (string * V)) k v : dget d k = Some v -> In (k, v) d.
Proof.
  induction d as [|[k' v'] d IH]; [discriminate|]. cbn [dget]. destruct (String.eqb_spec k k') as [->|_]; [intros [= ->]; now left|]. intro. right. auto.
Qed.
Lemma dget_perm {V} (d d' : list (string * V)) : NoDup (map fst d) -> Permutation d d' -> forall k, dget d k = dget d' k.
Proof.
  intros N P k. assert (N' : NoDup (map fst d')) by (apply (Permutation_NoDup (Permutation_map fst P) N)).
  destruct (dget d k) as [v|] eqn:E.
  - symmetry. apply dget_in; [exact N'|]. eapply Permutation_in; [exact P|]. now apply dget_some.
  - destruct (dget d' k) as [v|] eqn:E'; [|reflexivity]. rewrite <- E. apply dget_in; [exact N|]. eapply Permutation_in; [symmetry; exact P|]. now apply dget_some.
Qed.
Lemma dget_fold {V W} (f : W -> V) (at_ : list (string * W)) : NoDup (map fst at_) -> forall d k,
  dget (fold_left (fun d '(k, v) => dset d k (f v)) at_ d) k = match dget at_ k with Some v => Some (f v) | None => dget d k end.
Proof.
  induction at_ as [|[k' v'] at_ IH]; intros N d k; [reflexivity|]. inversion_clear N as [|? ? Hn N']. cbn [fold_left dget]. rewrite (IH N').
  destruct (String.eqb_spec k k') as [->|Ne].
  - rewrite (dget_out at_ k' Hn). now rewrite dget_dset_same.
  - destruct (dget at_ k); [reflexivity|]. now rewrite dget_dset_other.
Qed.
Lemma lastOne_app {A} (l l' : list A) : lastOne (l ++ l') = match lastOne l' with Some b => Some b | None => lastOne l end.
Proof. induction l as [|a l IH]; cbn [lastOne app]; [now destruct (lastOne l')|]. rewrite IH. now destruct (lastOne l'). Qed.

Lemma pairs_length {A B} (R : A -> B -> Prop) l l' : Forall2 R l l' -> List.length l = List.length l'.
Proof. induction 1; cbn; congruence. Qed.

Section Written.
  Context {T : Type} {NM : Num T} {X : NumText T}.

  Definition attrsOf (n : node T) := h_attrs (nheader n).
  Lemma setAttrs_eq (at_ : list (string * string)) : forall n : node T,
    setAttrs n at_ = Node {| h_attrs := fold_left (fun d '(k, v) => dset d k (attrValue v)) at_ (attrsOf n); h_vals := h_vals (nheader n); h_dyn := h_dyn (nheader n); h_elems := h_elems (nheader n) |} (bodyOf n).
  Proof.
    induction at_ as [|[k v] at_ IH]; intros [[? ? ? ?] b]; [reflexivity|]. unfold setAttrs in *. cbn [fold_left]. now rewrite IH.
  Qed.
  Lemma setAttrs_body (at_ : list (string * string)) (n : node T) : bodyOf (setAttrs n at_) = bodyOf n.
  Proof. now rewrite setAttrs_eq. Qed.
  Lemma child_attrs c strict (n n' : node T) e sub : nodeChild c strict n e sub = Ok n' -> attrsOf n' = attrsOf n.
  Proof.
    unfold nodeChild. destruct (String.eqb _ "Description"); [intros [= <-]; now destruct n|]. destruct (String.eqb _ "DynamicParameter").
    { destruct (autodesk_on c); [|destruct strict; [discriminate|now intros [= <-]]]. intros [= <-]. destruct (dget _ "param"); now destruct n. }
    unfold readChild. destruct n as [h []]; unfold arrayChild, imapChild;
      repeat (match goal with |- context [if ?b then _ else _] => destruct b | |- context [match ?m with Ok _ => _ | Err _ => _ end] => destruct m; cbn [bind] | |- context [bind ?m _] => destruct m; cbn [bind]
              | |- context [match ?i with INode _ => _ | IElem _ => _ | IUnknown => _ end] => destruct i end); try discriminate; now intros [= <-].
  Qed.
  Lemma children_attrs c (ld : string -> res (option (plist T))) strict ch : forall n n', readChildren c ld strict ch n = Ok n' -> attrsOf n' = attrsOf n.
  Proof.
    unfold readChildren. intros n n' H. refine (for_each_inv (fun m => attrsOf m = attrsOf n) _ _ _ _ _ eq_refl H).
    intros a m m' P E. rewrite <- P. eapply child_attrs, E.
  Qed.

  (** What [readItem] does for the element of a node. *)
  Lemma item_node c (ld : string -> res (option (plist T))) strict e n : readItem c ld strict e = Ok (INode n) ->
    exists new m, newNodeOf (elementType (x_tag e)) = Some new /\ readChildren c ld strict (x_children e) (setAttrs new (x_attrib e)) = Ok m /\ readInitialize ld m = Ok n.
  Proof.
    destruct e as [tag at_ x ch]. rewrite readItem_eq. cbv zeta. cbn [x_tag x_attrib x_children].
    destruct (inList _ _); [discriminate|]. destruct (String.eqb _ "Info"); [discriminate|]. destruct (String.eqb _ "ProcessNode"); [discriminate|].
    destruct (newNodeOf _) as [new|]; [|discriminate]. destruct (readChildren _ _ _ _ _) as [m|] eqn:E; [|discriminate]. cbn [bind].
    destruct (readInitialize ld m) as [m'|] eqn:E'; [|discriminate]. cbn [bind]. intros [= <-]. eauto 6.
  Qed.
  Lemma node_of c (ld : string -> res (option (plist T))) strict e : is_ok (readItem c ld strict e) ->
    inList (elementType (x_tag e)) (commentKinds ++ ["Info"; "ProcessNode"]) = false -> (if newNodeOf (T := T) (elementType (x_tag e)) then true else false) = true ->
    exists n, readItem c ld strict e = Ok (INode n).
  Proof.
    destruct e as [tag at_ x ch]. rewrite readItem_eq. cbv zeta. cbn [x_tag]. intros [i E] K N. unfold inList in *. rewrite existsb_app in K. apply Bool.orb_false_iff in K as [K1 K2].
    cbn [existsb] in K2. apply Bool.orb_false_iff in K2 as [K2 K3]. apply Bool.orb_false_iff in K3 as [K3 _]. rewrite K1, K2, K3 in *. destruct (newNodeOf _) as [n|]; [|discriminate].
    destruct (readChildren _ _ _ _ _) as [m|]; [|discriminate]. cbn [bind] in *. destruct (readInitialize ld m) as [m'|]; [|discriminate]. cbn [bind] in *. eauto.
  Qed.
  Lemma init_attrs (ld : string -> res (option (plist T))) (m n : node T) : readInitialize ld m = Ok n -> attrsOf n = attrsOf m.
  Proof.
    destruct m as [h []]; cbn [readInitialize]; try (now intros [= <-]). destruct (resolvePath h); [|discriminate]. cbn [bind]. destruct (ld _); [|discriminate]. cbn [bind]. now intros [= <-].
  Qed.
  Lemma new_defaults ty (new : node T) k : newNodeOf ty = Some new -> dget (attrsOf new) k = option_map AStr (dget (defaultsOf ty) k).
  Proof.
    unfold newNodeOf, defaultsOf.
    repeat match goal with |- context [String.eqb ty ?s] => destruct (String.eqb_spec ty s) as [->|]; cbn [String.eqb Ascii.eqb Bool.eqb] end; try discriminate;
      intros [= <-];
      match goal with |- dget ?d k = option_map AStr (dget ?u k) => let d' := eval vm_compute in d in let u' := eval vm_compute in u in change (dget d' k = option_map AStr (dget u' k)) end;
      cbn [dget]; repeat (destruct (String.eqb k _); [reflexivity|]); reflexivity.
  Qed.
  Lemma value_written s : valueWritten s (attrValue s).
  Proof. unfold valueWritten, attrValue. destruct (String.eqb_spec s "True") as [->|]; [now left|]. destruct (String.eqb_spec s "False") as [->|]; [right; now left|]. right. now right. Qed.

  Lemma attributes_read c (ld : string -> res (option (plist T))) strict e n : NoDup (map fst (x_attrib e)) -> readItem c ld strict e = Ok (INode n) ->
    (forall k s, In (k, s) (x_attrib e) -> exists v, valueWritten s v /\ dget (h_attrs (nheader n)) k = Some v) /\
    (forall k, ~ In k (map fst (x_attrib e)) -> dget (h_attrs (nheader n)) k = option_map AStr (dget (defaultsOf (elementType (x_tag e))) k)).
  Proof.
    intros D R. destruct (item_node _ _ _ _ _ R) as (new & m & N & C & I).
    assert (A : forall k, dget (h_attrs (nheader n)) k = match dget (x_attrib e) k with Some v => Some (attrValue v) | None => dget (attrsOf new) k end).
    { intro k. change (h_attrs (nheader n)) with (attrsOf n). rewrite (init_attrs _ _ _ I), (children_attrs _ _ _ _ _ _ C), setAttrs_eq. unfold attrsOf at 1. cbn [nheader h_attrs]. now apply dget_fold. }
    split.
    - intros k s K. exists (attrValue s). split; [apply value_written|]. now rewrite A, (dget_in _ _ _ D K).
    - intros k K. rewrite A, (dget_out _ _ K). now apply new_defaults.
  Qed.

  (** * Children *)

  Definition other (e : xelem) : bool := let ty := elementType (x_tag e) in negb (String.eqb ty "Description") && negb (String.eqb ty "DynamicParameter").
  Lemma child_cases c strict (n : node T) e sub n' : nodeChild c strict n e sub = Ok n' ->
    (other e = false /\ bodyOf n' = bodyOf n /\ h_vals (nheader n') = h_vals (nheader n)) \/ (other e = true /\ readChild n e sub = Ok n').
  Proof.
    unfold nodeChild, other. destruct (String.eqb _ "Description"); [intros [= <-]; left; now destruct n|]. destruct (String.eqb _ "DynamicParameter").
    - destruct (autodesk_on c); [|destruct strict; [discriminate|intros [= <-]; now left]]. intros [= <-]. left. destruct (dget _ "param"); now destruct n.
    - intro H. right. now split.
  Qed.
  Lemma other_not e ty : other e = false -> ty <> "Description" -> ty <> "DynamicParameter" -> String.eqb (elementType (x_tag e)) ty = false.
  Proof.
    unfold other. intros H A B. destruct (String.eqb_spec (elementType (x_tag e)) ty) as [E|]; [|reflexivity].
    cbv zeta in H. rewrite E in H. apply String.eqb_neq in A, B. now rewrite A, B in H.
  Qed.
  Lemma texts_cons ty e ch : childTexts ty (e :: ch) = (if String.eqb (elementType (x_tag e)) ty then [x_text e] else []) ++ childTexts ty ch.
  Proof. unfold childTexts. cbn [filter]. now destruct (String.eqb _ ty). Qed.
  Lemma attributes_cons ty e ch : childAttributes ty (e :: ch) = (if String.eqb (elementType (x_tag e)) ty then [x_attrib e] else []) ++ childAttributes ty ch.
  Proof. unfold childAttributes. cbn [filter]. now destruct (String.eqb _ ty). Qed.

  Definition numberAfter (texts : list (option string)) (before after : option T) : Prop :=
    match lastOne texts with
    | None => after = before
    | Some t => exists s v, t = Some s /\ parseFloat s = Ok v /\ after = Some v
    end.
  Definition numbersAfter (texts : list (option string)) (before after : option (list T)) : Prop :=
    match lastOne texts with
    | None => after = before
    | Some t => exists s vs, t = Some s /\ mapM parseFloat (MNumText.split s) = Ok vs /\ after = Some vs
    end.
  Lemma number_trans l l' a b c : numberAfter l a b -> numberAfter l' b c -> numberAfter (l ++ l') a c.
  Proof. unfold numberAfter. rewrite lastOne_app. destruct (lastOne l'); [easy|]. now intros H ->. Qed.
  Lemma numbers_trans l l' a b c : numbersAfter l a b -> numbersAfter l' b c -> numbersAfter (l ++ l') a c.
  Proof. unfold numbersAfter. rewrite lastOne_app. destruct (lastOne l'); [easy|]. now intros H ->. Qed.

  Lemma range_children c (ld : string -> res (option (plist T))) strict ch : forall n n', bodyOf n = BRange -> readChildren c ld strict ch n = Ok n' ->
    bodyOf n' = BRange /\ forall k, In k limitNames -> numberAfter (childTexts k ch) (dget (h_vals (nheader n)) k) (dget (h_vals (nheader n')) k).
  Proof.
    unfold readChildren. induction ch as [|e ch IH]; intros n n' B H; cbn [for_each] in H.
    - injection H as <-. split; [exact B|]. reflexivity.
    - destruct (nodeChild c strict n e _) as [m|] eqn:E; [|discriminate]. cbn [bind] in H.
      assert (K : bodyOf m = BRange /\ forall k, In k limitNames -> numberAfter (if String.eqb (elementType (x_tag e)) k then [x_text e] else []) (dget (h_vals (nheader n)) k) (dget (h_vals (nheader m)) k)).
      { apply child_cases in E as [(O & Bm & Vm)|(O & E)].
        - split; [congruence|]. intros k Hk. rewrite (other_not e k O), Vm; [reflexivity| |]; intros ->; revert Hk; cbv; intuition discriminate.
        - destruct n as [h b]. cbn [bodyOf] in B. subst b. cbn [readChild] in E. destruct (inList _ rangeLimits) eqn:I.
          + destruct (floatText (x_text e)) as [v|] eqn:F; [|discriminate]. cbn [bind] in E. injection E as <-. split; [reflexivity|]. intros k Hk. cbn [nheader hSetVal h_vals].
            destruct (String.eqb_spec (elementType (x_tag e)) k) as [->|Ne].
            * unfold numberAfter. cbn [lastOne]. rewrite dget_dset_same. destruct (x_text e) as [s|]; [|discriminate]. cbn [floatText] in F. eauto.
            * unfold numberAfter. cbn [lastOne]. now rewrite dget_dset_other by congruence.
          + injection E as <-. split; [reflexivity|]. intros k Hk. destruct (String.eqb_spec (elementType (x_tag e)) k) as [Ek|_]; [|reflexivity].
            exfalso. rewrite Ek in I. revert Hk I. unfold limitNames, inList, rangeLimits. cbn [In]. intros [<-|[<-|[<-|[<-|[]]]]]; discriminate. }
      destruct K as [Bm Km]. destruct (IH m n' Bm H) as [Bn Kn]. split; [exact Bn|]. intros k Hk. rewrite texts_cons. eapply number_trans; [now apply Km|now apply Kn].
  Qed.
  Lemma plain_init (ld : string -> res (option (plist T))) (m n : node T) : readInitialize ld m = Ok n -> match bodyOf m with BReference _ _ => False | _ => True end -> n = m.
  Proof. destruct m as [h []]; cbn [readInitialize bodyOf]; try (intros [= <-]; reflexivity). now intros _ []. Qed.

  Lemma limits_read c (ld : string -> res (option (plist T))) strict e n : elementType (x_tag e) = "Range" -> readItem c ld strict e = Ok (INode n) ->
    exists h, n = Node h BRange /\ forall k, In k limitNames -> numberWritten (childTexts k (x_children e)) (dget (h_vals h) k).
  Proof.
    intros Ty R. destruct (item_node _ _ _ _ _ R) as (new & m & N & C & I). rewrite Ty in N. injection N as <-; match type of C with readChildren _ _ _ _ (setAttrs ?s _) = _ => pose proof (setAttrs_body (x_attrib e) s) as S0 end.
    destruct (range_children c ld strict _ _ m S0 C) as [B K].
    rewrite <- (plain_init _ _ _ I) in * by (rewrite B; exact Logic.I). destruct n as [h b]. cbn [bodyOf] in B. subst b. exists h. split; [reflexivity|]. intros k Hk. specialize (K k Hk). rewrite setAttrs_eq in K. exact K.
  Qed.

  (** * Parameters *)

  Lemma attr_said at_ k d v : attrFloat at_ k d = Ok v -> said (T := T) at_ k d v.
  Proof. unfold attrFloat, said. destruct (dget at_ k); [easy|congruence]. Qed.
  Lemma gamma_said at_ p : gammaRead (T := T) at_ = Ok p -> gammaSaid at_ p.
  Proof.
    unfold gammaRead, gammaSaid. destruct (attrFloat at_ "gamma" _) as [g|] eqn:G; [|discriminate]. cbn [bind]. destruct (attrFloat at_ "offset" _) as [o|] eqn:O; [|discriminate]. cbn [bind]. intros [= <-].
    cbn. split; [|split]; [now apply attr_said|now apply attr_said|reflexivity].
  Qed.
  Lemma log_said at_ p : logRead (T := T) at_ = Ok p -> logSaid at_ p.
  Proof.
    unfold logRead, logSaid. destruct (attrFloat at_ "gamma" _) as [g|] eqn:G; [|discriminate]. cbn [bind]. destruct (attrFloat at_ "refWhite" _) as [o|] eqn:W; [|discriminate]. cbn [bind].
    destruct (attrFloat at_ "refBlack" _) as [k|] eqn:K; [|discriminate]. cbn [bind]. destruct (attrFloat at_ "highlight" _) as [hi|] eqn:H; [|discriminate]. cbn [bind].
    destruct (attrFloat at_ "shadow" _) as [sh|] eqn:S; [|discriminate]. cbn [bind]. intros [= <-]. cbn. repeat split; now apply attr_said.
  Qed.
  Lemma exposure_said at_ p : ecRead (T := T) at_ = Ok p -> exposureSaid at_ p.
  Proof.
    unfold ecRead, exposureSaid. destruct (attrFloat at_ "exposure" _) as [g|] eqn:G; [|discriminate]. cbn [bind]. destruct (attrFloat at_ "contrast" _) as [o|] eqn:W; [|discriminate]. cbn [bind].
    destruct (attrFloat at_ "pivot" _) as [k|] eqn:K; [|discriminate]. cbn [bind]. intros [= <-]. cbn. repeat split; now apply attr_said.
  Qed.

  Lemma gamma_children c (ld : string -> res (option (plist T))) strict ch : forall n n' ps, bodyOf n = BGamma ps -> readChildren c ld strict ch n = Ok n' ->
    exists qs, bodyOf n' = BGamma (ps ++ qs) /\ Forall2 gammaSaid (childAttributes "GammaParams" ch) qs.
  Proof.
    unfold readChildren. induction ch as [|e ch IH]; intros n n' ps B H; cbn [for_each] in H.
    - injection H as <-. exists []. rewrite app_nil_r. split; [exact B|constructor].
    - destruct (nodeChild c strict n e _) as [m|] eqn:E; [|discriminate]. cbn [bind] in H.
      assert (K : exists q, bodyOf m = BGamma (ps ++ q) /\ Forall2 gammaSaid (if String.eqb (elementType (x_tag e)) "GammaParams" then [x_attrib e] else []) q).
      { apply child_cases in E as [(O & Bm & Vm)|(O & E)].
        - exists []. rewrite app_nil_r, (other_not e "GammaParams" O) by discriminate. split; [congruence|constructor].
        - destruct n as [h b]. cbn [bodyOf] in B. subst b. cbn [readChild] in E. destruct (String.eqb _ "GammaParams").
          + destruct (gammaRead (x_attrib e)) as [p|] eqn:G; [|discriminate]. cbn [bind] in E. injection E as <-. exists [p]. split; [reflexivity|]. constructor; [now apply gamma_said|constructor].
          + injection E as <-. exists []. rewrite app_nil_r. split; [reflexivity|constructor]. }
      destruct K as (q & Bm & Q). destruct (IH m n' _ Bm H) as (qs & Bn & Qs). exists (q ++ qs). rewrite app_assoc, attributes_cons. split; [exact Bn|]. now apply Forall2_app.
  Qed.
  Lemma log_children c (ld : string -> res (option (plist T))) strict ch : forall n n' ps, bodyOf n = BLog ps -> readChildren c ld strict ch n = Ok n' ->
    exists qs, bodyOf n' = BLog (ps ++ qs) /\ Forall2 logSaid (childAttributes "LogParams" ch) qs.
  Proof.
    unfold readChildren. induction ch as [|e ch IH]; intros n n' ps B H; cbn [for_each] in H.
    - injection H as <-. exists []. rewrite app_nil_r. split; [exact B|constructor].
    - destruct (nodeChild c strict n e _) as [m|] eqn:E; [|discriminate]. cbn [bind] in H.
      assert (K : exists q, bodyOf m = BLog (ps ++ q) /\ Forall2 logSaid (if String.eqb (elementType (x_tag e)) "LogParams" then [x_attrib e] else []) q).
      { apply child_cases in E as [(O & Bm & Vm)|(O & E)].
        - exists []. rewrite app_nil_r, (other_not e "LogParams" O) by discriminate. split; [congruence|constructor].
        - destruct n as [h b]. cbn [bodyOf] in B. subst b. cbn [readChild] in E. destruct (String.eqb _ "LogParams").
          + destruct (logRead (x_attrib e)) as [p|] eqn:G; [|discriminate]. cbn [bind] in E. injection E as <-. exists [p]. split; [reflexivity|]. constructor; [now apply log_said|constructor].
          + injection E as <-. exists []. rewrite app_nil_r. split; [reflexivity|constructor]. }
      destruct K as (q & Bm & Q). destruct (IH m n' _ Bm H) as (qs & Bn & Qs). exists (q ++ qs). rewrite app_assoc, attributes_cons. split; [exact Bn|]. now apply Forall2_app.
  Qed.
  Definition exposureAfter (l : list (list (string * string))) (p q : eparam T) : Prop := match lastOne l with None => q = p | Some at_ => exposureSaid at_ q end.
  Lemma exposure_children c (ld : string -> res (option (plist T))) strict ch : forall n n' p, bodyOf n = BExposureContrast p -> readChildren c ld strict ch n = Ok n' ->
    exists q, bodyOf n' = BExposureContrast q /\ exposureAfter (childAttributes "ECParams" ch) p q.
  Proof.
    unfold readChildren. induction ch as [|e ch IH]; intros n n' p B H; cbn [for_each] in H.
    - injection H as <-. exists p. split; [exact B|reflexivity].
    - destruct (nodeChild c strict n e _) as [m|] eqn:E; [|discriminate]. cbn [bind] in H.
      assert (K : exists q, bodyOf m = BExposureContrast q /\ exposureAfter (if String.eqb (elementType (x_tag e)) "ECParams" then [x_attrib e] else []) p q).
      { apply child_cases in E as [(O & Bm & Vm)|(O & E)].
        - exists p. rewrite (other_not e "ECParams" O) by discriminate. split; [congruence|reflexivity].
        - destruct n as [h b]. cbn [bodyOf] in B. subst b. cbn [readChild] in E. destruct (String.eqb _ "ECParams").
          + destruct (ecRead (x_attrib e)) as [q|] eqn:G; [|discriminate]. cbn [bind] in E. injection E as <-. exists q. split; [reflexivity|]. now apply exposure_said.
          + injection E as <-. exists p. split; reflexivity. }
      destruct K as (q & Bm & Q). destruct (IH m n' _ Bm H) as (r & Bn & Rr). exists r. rewrite attributes_cons. split; [exact Bn|].
      unfold exposureAfter in *. rewrite lastOne_app. destruct (lastOne (childAttributes _ ch)); [exact Rr|]. now subst.
  Qed.

  Lemma parameters_read c (ld : string -> res (option (plist T))) strict e n : readItem c ld strict e = Ok (INode n) ->
    (elementType (x_tag e) = "Gamma" -> exists h ps, n = Node h (BGamma ps) /\ Forall2 gammaSaid (childAttributes "GammaParams" (x_children e)) ps) /\
    (elementType (x_tag e) = "Log" -> exists h ps, n = Node h (BLog ps) /\ Forall2 logSaid (childAttributes "LogParams" (x_children e)) ps) /\
    (elementType (x_tag e) = "ExposureContrast" -> exists h p, n = Node h (BExposureContrast p) /\
       exposureSaid (match lastOne (childAttributes "ECParams" (x_children e)) with Some attrs => attrs | None => [] end) p).
  Proof.
    intro R. destruct (item_node _ _ _ _ _ R) as (new & m & N & C & I). split; [|split]; intro Ty; rewrite Ty in N; injection N as <-; match type of C with readChildren _ _ _ _ (setAttrs ?s _) = _ => pose proof (setAttrs_body (x_attrib e) s) as S0 end.
    - destruct (gamma_children c ld strict _ _ m [] S0 C) as (qs & B & K).
      rewrite <- (plain_init _ _ _ I) in * by (rewrite B; exact Logic.I). destruct n as [h b]. cbn [bodyOf] in B. subst b. eauto.
    - destruct (log_children c ld strict _ _ m [] S0 C) as (qs & B & K).
      rewrite <- (plain_init _ _ _ I) in * by (rewrite B; exact Logic.I). destruct n as [h b]. cbn [bodyOf] in B. subst b. eauto.
    - destruct (exposure_children c ld strict _ _ m _ S0 C) as (q & B & K).
      rewrite <- (plain_init _ _ _ I) in * by (rewrite B; exact Logic.I). destruct n as [h b]. cbn [bodyOf] in B. subst b. exists h, q. split; [reflexivity|].
      unfold exposureAfter in K. destruct (lastOne _); [exact K|]. subst q. now repeat split.
  Qed.

  (** * The values of a CDL *)

  Definition cdlAfter (sop sat : list xelem) (v w : cdl T) : Prop :=
    numbersAfter (childTexts "Slope" sop) (c_slope v) (c_slope w) /\ numbersAfter (childTexts "Offset" sop) (c_offset v) (c_offset w) /\
    numbersAfter (childTexts "Power" sop) (c_power v) (c_power w) /\ numberAfter (childTexts "Saturation" sat) (c_sat v) (c_sat w).
  Lemma texts_app ty ch ch' : childTexts ty (ch ++ ch') = childTexts ty ch ++ childTexts ty ch'.
  Proof. unfold childTexts. now rewrite filter_app, map_app. Qed.
  Lemma cdl_trans p p' q q' u v w : cdlAfter p q u v -> cdlAfter p' q' v w -> cdlAfter (p ++ p') (q ++ q') u w.
  Proof.
    intros (A & B & C & D) (A' & B' & C' & D'). unfold cdlAfter. rewrite !texts_app.
    repeat split; [eapply numbers_trans; eauto|eapply numbers_trans; eauto|eapply numbers_trans; eauto|eapply number_trans; eauto].
  Qed.
  Lemma cdl_none v : cdlAfter [] [] v v.
  Proof. now repeat split. Qed.
  Lemma sop_after ch : forall v w, sopRead (T := T) ch v = Ok w -> cdlAfter ch [] v w.
  Proof.
    unfold sopRead. induction ch as [|e ch IH]; intros v w H; cbn [for_each] in H; [injection H as <-; apply cdl_none|].
    match type of H with bind ?m _ = _ => destruct m as [u|] eqn:E; [|discriminate] end. cbn [bind] in H. apply IH in H. apply (cdl_trans [e] ch [] [] v u w); [|exact H]. clear IH H w.
    unfold cdlAfter. rewrite !texts_cons. destruct (x_text e) as [t|]; cbn [floatsOf] in E.
    - destruct (mapM parseFloat (MNumText.split t)) as [vs|] eqn:P; cbn [bind] in E.
      + destruct (String.eqb_spec (elementType (x_tag e)) "Slope") as [->|]; [injection E as <-; repeat split; cbn; eauto|].
        destruct (String.eqb_spec (elementType (x_tag e)) "Offset") as [->|]; [injection E as <-; repeat split; cbn; eauto|].
        destruct (String.eqb_spec (elementType (x_tag e)) "Power") as [_|]; [injection E as <-; repeat split; cbn; eauto|]. injection E as <-. now repeat split.
      + destruct (String.eqb _ "Slope"); [discriminate|]. destruct (String.eqb _ "Offset"); [discriminate|]. destruct (String.eqb _ "Power"); [discriminate|]. injection E as <-. now repeat split.
    - cbn [bind] in E. destruct (String.eqb _ "Slope"); [discriminate|]. destruct (String.eqb _ "Offset"); [discriminate|]. destruct (String.eqb _ "Power"); [discriminate|]. injection E as <-. now repeat split.
  Qed.
  Lemma sat_after ch : forall v w, satRead (T := T) ch v = Ok w -> cdlAfter [] ch v w.
  Proof.
    unfold satRead. induction ch as [|e ch IH]; intros v w H; cbn [for_each] in H; [injection H as <-; apply cdl_none|].
    match type of H with bind ?m _ = _ => destruct m as [u|] eqn:E; [|discriminate] end. cbn [bind] in H. apply IH in H. apply (cdl_trans [] [] [e] ch v u w); [|exact H]. clear IH H w.
    unfold cdlAfter. rewrite !texts_cons. destruct (String.eqb_spec (elementType (x_tag e)) "Saturation") as [_|]; [|injection E as <-; now repeat split].
    destruct (x_text e) as [t|]; [|discriminate]. cbn [floatText] in E. destruct (parseFloat t) as [x|] eqn:P; [|discriminate]. cbn [bind] in E. injection E as <-. repeat split; cbn; eauto.
  Qed.
  Lemma inside_cons ty e ch : inside ty (e :: ch) = (if String.eqb (lower (elementType (x_tag e))) ty then x_children e else []) ++ inside ty ch.
  Proof. reflexivity. Qed.
  Lemma cdl_child e v w : cdlRead (T := T) e v = Ok w ->
    cdlAfter (if String.eqb (lower (elementType (x_tag e))) "sopnode" then x_children e else []) (if String.eqb (lower (elementType (x_tag e))) "satnode" then x_children e else []) v w.
  Proof.
    unfold cdlRead. cbv zeta. destruct (String.eqb_spec (lower (elementType (x_tag e))) "sopnode") as [->|].
    - cbn [String.eqb Ascii.eqb Bool.eqb]. apply sop_after.
    - destruct (String.eqb_spec (lower (elementType (x_tag e))) "satnode"); [apply sat_after|]. intros [= <-]. apply cdl_none.
  Qed.
  Lemma cdl_children c (ld : string -> res (option (plist T))) strict (B : cdl T -> body T) : (forall h v e sub, readChild (Node h (B v)) e sub = let* w := cdlRead e v in Ok (Node h (B w))) ->
    forall ch n n' v, bodyOf n = B v -> readChildren c ld strict ch n = Ok n' -> exists w, bodyOf n' = B w /\ cdlAfter (inside "sopnode" ch) (inside "satnode" ch) v w.
  Proof.
    intro HB. unfold readChildren. induction ch as [|e ch IH]; intros n n' v Bn H; cbn [for_each] in H.
    - injection H as <-. exists v. split; [exact Bn|apply cdl_none].
    - destruct (nodeChild c strict n e _) as [m|] eqn:E; [|discriminate]. cbn [bind] in H. rewrite !inside_cons.
      assert (K : exists w, bodyOf m = B w /\ cdlAfter (if String.eqb (lower (elementType (x_tag e))) "sopnode" then x_children e else []) (if String.eqb (lower (elementType (x_tag e))) "satnode" then x_children e else []) v w).
      { apply child_cases in E as [(O & Bm & Vm)|(O & E)].
        - exists v. split; [congruence|]. unfold other in O. destruct (String.eqb_spec (elementType (x_tag e)) "Description") as [->|]; [apply cdl_none|].
          destruct (String.eqb_spec (elementType (x_tag e)) "DynamicParameter") as [->|]; [apply cdl_none|discriminate].
        - destruct n as [h b]. cbn [bodyOf] in Bn. subst b. rewrite HB in E. destruct (cdlRead e v) as [w|] eqn:C; [|discriminate]. cbn [bind] in E. injection E as <-. exists w. split; [reflexivity|]. now apply cdl_child. }
      destruct K as (w & Bm & K). destruct (IH m n' w Bm H) as (w' & Bn' & K'). exists w'. split; [exact Bn'|]. eapply cdl_trans; eauto.
  Qed.
  Lemma cdl_read c (ld : string -> res (option (plist T))) strict e n : readItem c ld strict e = Ok (INode n) ->
    (elementType (x_tag e) = "ASCCDL" -> exists h v, n = Node h (BCDL v) /\ cdlSaid (x_children e) v) /\
    (elementType (x_tag e) = "ColorCorrection" -> exists h v, n = Node h (BColorCorrection v) /\ cdlSaid (x_children e) v).
  Proof.
    intro R. destruct (item_node _ _ _ _ _ R) as (new & m & N & C & I). split; intro Ty; rewrite Ty in N; injection N as <-; match type of C with readChildren _ _ _ _ (setAttrs ?s _) = _ => pose proof (setAttrs_body (x_attrib e) s) as S0 end.
    - destruct (cdl_children c ld strict BCDL (fun _ _ _ _ => eq_refl) _ _ m _ S0 C) as (w & B & K).
      rewrite <- (plain_init _ _ _ I) in * by (rewrite B; exact Logic.I). destruct n as [h b]. cbn [bodyOf] in B. subst b. eauto.
    - destruct (cdl_children c ld strict BColorCorrection (fun _ _ _ _ => eq_refl) _ _ m _ S0 C) as (w & B & K).
      rewrite <- (plain_init _ _ _ I) in * by (rewrite B; exact Logic.I). destruct n as [h b]. cbn [bodyOf] in B. subst b. eauto.
  Qed.

  (** * Tables *)

  Lemma mapM_words {B} (f : string -> res B) : forall ws vs, mapM f ws = Ok vs -> Forall2 (fun w v => f w = Ok v) ws vs.
  Proof.
    induction ws as [|w ws IH]; intros vs H; cbn [mapM] in H; [injection H as <-; constructor|]. destruct (f w) as [v|] eqn:E; [|discriminate]. cbn [bind] in H.
    destruct (mapM f ws) as [us|]; [|discriminate]. cbn [bind] in H. injection H as <-. constructor; [exact E|now apply IH].
  Qed.
  Lemma words_weaken {B} (P Q : string -> B -> Prop) ws vs : (forall w v, P w v -> Q w v) -> Forall2 P ws vs -> Forall2 Q ws vs.
  Proof. intros H F. induction F; constructor; auto. Qed.
  Lemma array_said e (a : array T) : arrayRead (emptyArray false) e = Ok a -> arraySaid e a.
  Proof.
    unfold arrayRead, arraySaid. intro H. destruct (match dget (x_attrib e) "dim" with Some v => mapM parseDim (MNumText.split v) | None => Ok (a_dims (emptyArray (T := T) false)) end) as [ds|] eqn:D; [|discriminate].
    cbn [bind] in H. cbn [emptyArray mkArray a_raw a_enc] in H. destruct (MXml.readsAs _ _) as [dt cast] eqn:R. destruct (x_text e) as [s|]; [|discriminate].
    destruct (mapM _ (MNumText.split s)) as [vs|] eqn:V; [|discriminate]. cbn [bind] in H. injection H as <-. cbn [a_dims a_vals]. split.
    - destruct (dget (x_attrib e) "dim") as [d|]; [|injection D as <-; reflexivity]. apply mapM_words in D. revert D. apply words_weaken. intros w n K. unfold parseDim in K.
      destruct (parseInt w) as [z|]; [|discriminate]. cbn [bind] in K. destruct (z <? 0)%Z eqn:Z0; [discriminate|]. injection K as <-. f_equal. apply Z.ltb_ge in Z0. now rewrite Znat.Z2Nat.id.
    - exists s. split; [reflexivity|]. intro F. replace (MXml.readsAs (T := T) false (match dget (x_attrib e) "floatEncoding" with Some v => v | None => "string" end)) with (DtF32, parseFloat (T := T)) in R by (destruct F as [-> | ->]; reflexivity).
      injection R as <- <-. apply mapM_words in V. revert V. apply words_weaken. intros w v K. destruct (parseFloat w) as [x|]; [|discriminate]. cbn [bind storeAs] in K. injection K as <-. eauto.
  Qed.
  Lemma imap_said e (m : imap T) : imapRead e = Ok m -> imapSaid e m.
  Proof.
    unfold imapRead, imapSaid. intro H. destruct (match dget (x_attrib e) "dim" with Some v => let* n := parseDim v in Ok (Some n) | None => Ok None end) as [d|] eqn:D; [|discriminate]. cbn [bind] in H.
    destruct (x_text e) as [s|]; [|discriminate]. cbv zeta in H. destruct (mapM _ (MNumText.split s)) as [ins|] eqn:I; [|discriminate]. cbn [bind] in H.
    destruct (mapM (fun p => let* w := getn (splitAt "@" p) 1 in parseFloat w) (MNumText.split s)) as [outs|] eqn:O; [|discriminate]. cbn [bind] in H. injection H as <-. cbn [im_dim im_in im_out]. split.
    { destruct (dget (x_attrib e) "dim") as [v|]; [|now injection D as <-]. unfold parseDim in D. destruct (parseInt v) as [z|]; [|discriminate]. cbn [bind] in D.
      destruct (z <? 0)%Z eqn:Z0; [discriminate|]. cbn [bind] in D. injection D as <-. eexists. split; [|reflexivity]. f_equal. apply Z.ltb_ge in Z0. now rewrite Znat.Z2Nat.id. }
    exists s. split; [reflexivity|].
    apply mapM_words in I, O. assert (Two : Forall (fun w => exists a b rest, splitAt "@" w = a :: b :: rest) (MNumText.split s)).
    { clear I. induction O as [|w v ws vs H _ IH]; constructor; [|exact IH]. destruct (splitAt "@" w) as [|a [|b rest]]; try discriminate. eauto. }
    split.
    - clear O. induction I as [|w v ws vs H _ IH]; constructor; [|apply IH; now inversion Two]. inversion_clear Two as [|? ? (a & b & rest & E) _]. exists a, b, rest. split; [exact E|]. now rewrite E in H.
    - clear I. induction O as [|w v ws vs H _ IH]; constructor; [|apply IH; now inversion Two]. inversion_clear Two as [|? ? (a & b & rest & E) _]. exists a, b, rest. split; [exact E|]. now rewrite E in H.
  Qed.

  Definition tableBody (maps : bool) (b : body T) : Prop := if maps then b = BLUT1D \/ b = BLUT3D else b = BMatrix.
  Lemma arrays_add h x : arraysIn (T := T) (hAddElem h x) = arraysIn h ++ match x with EArray a => [a] | _ => [] end.
  Proof. unfold arraysIn. cbn [hAddElem h_elems]. rewrite flat_map_app. cbn [flat_map]. now rewrite app_nil_r. Qed.
  Lemma imaps_add h x : imapsIn (T := T) (hAddElem h x) = imapsIn h ++ match x with EIndexMap a => [a] | _ => [] end.
  Proof. unfold imapsIn. cbn [hAddElem h_elems]. rewrite flat_map_app. cbn [flat_map]. now rewrite app_nil_r. Qed.
  Lemma array_kept e (a : array T) k i : arraySaid e a -> arraySaid e {| a_dims := a_dims a; a_vals := a_vals a; a_dt := a_dt a; a_raw := k; a_int := i; a_enc := a_enc a |}.
  Proof. exact (fun H => H). Qed.

  Lemma table_child c (maps : bool) strict n e sub n' : tableBody maps (bodyOf n) -> flagSet (nheader n) "rawHalfs" = false -> nodeChild c strict n e sub = Ok n' ->
    tableBody maps (bodyOf n') /\
    (exists l, arraysIn (nheader n') = arraysIn (nheader n) ++ l /\ Forall2 arraySaid (if String.eqb (elementType (x_tag e)) "Array" then [e] else []) l) /\
    (maps = true -> exists l, imapsIn (nheader n') = imapsIn (nheader n) ++ l /\ Forall2 imapSaid (if String.eqb (elementType (x_tag e)) "IndexMap" then [e] else []) l).
  Proof.
    intros B F E. unfold nodeChild in E. cbv zeta in E.
    destruct (String.eqb_spec (elementType (x_tag e)) "Description") as [Ty|_].
    { rewrite Ty. injection E as <-. destruct n as [h b]. cbn [addElement nheader bodyOf] in *. rewrite arrays_add, imaps_add. split; [exact B|]. split; [exists []; split; [reflexivity|constructor]|]. intros _. exists []. split; [reflexivity|constructor]. }
    destruct (String.eqb_spec (elementType (x_tag e)) "DynamicParameter") as [Ty|_].
    { rewrite Ty. assert (K : n' = n \/ exists v h b, n = Node h b /\ n' = Node (hAddDyn h v) b).
      { destruct (autodesk_on c); [|destruct strict; [discriminate|injection E as <-; now left]]. injection E as <-. destruct (dget _ "param") as [v|]; [|now left]. right. destruct n as [h b]. exists v, h, b. now split. }
      assert (Q : bodyOf n' = bodyOf n /\ h_elems (nheader n') = h_elems (nheader n)) by (destruct K as [->|(v & h & b & -> & ->)]; now split).
      destruct Q as [-> Q]. split; [exact B|]. unfold arraysIn, imapsIn. rewrite Q. split; [|intros _]; exists []; (split; [now rewrite app_nil_r|constructor]). }
    destruct n as [h b]. cbn [bodyOf nheader] in B, F |- *. unfold readChild in E. cbv zeta in E. unfold arrayChild, imapChild in E.
    destruct maps; cbn [tableBody] in B; [destruct B as [-> | ->]|subst b]; rewrite ?F in E.
    1, 2: destruct (String.eqb_spec (elementType (x_tag e)) "Array") as [Ty|_];
      [ rewrite Ty; destruct (arrayRead _ e) as [a|] eqn:R; [|discriminate]; cbn [bind addElement] in E; injection E as <-; cbn [nheader bodyOf]; rewrite arrays_add, imaps_add;
        split; [cbn; tauto|]; split; [eexists; split; [reflexivity|]; constructor; [now apply array_kept, array_said|constructor]|]; intros _; exists []; split; [reflexivity|constructor]
      | destruct (String.eqb (elementType (x_tag e)) "IndexMap");
        [ destruct (imapRead e) as [m|] eqn:R; [|discriminate]; cbn [bind addElement] in E; injection E as <-; cbn [nheader bodyOf]; rewrite arrays_add, imaps_add;
          split; [cbn; tauto|]; split; [exists []; split; [reflexivity|constructor]|]; intros _; eexists; split; [reflexivity|]; constructor; [now apply imap_said|constructor]
        | injection E as <-; cbn [nheader bodyOf]; split; [cbn; tauto|]; split; [|intros _]; exists []; (split; [now rewrite app_nil_r|constructor]) ] ].
    destruct (String.eqb (elementType (x_tag e)) "Array").
    - destruct (arrayRead _ e) as [a|] eqn:R; [|discriminate]; cbn [bind addElement] in E; injection E as <-; cbn [nheader bodyOf]; rewrite arrays_add.
      split; [reflexivity|]. split; [eexists; split; [reflexivity|]; constructor; [now apply array_kept, array_said|constructor]|]. discriminate.
    - injection E as <-. split; [reflexivity|]. split; [exists []; split; [now rewrite app_nil_r|constructor]|]. discriminate.
  Qed.
  Lemma table_children c (ld : string -> res (option (plist T))) strict (maps : bool) ch : forall n n', tableBody maps (bodyOf n) -> flagSet (nheader n) "rawHalfs" = false -> readChildren c ld strict ch n = Ok n' ->
    tableBody maps (bodyOf n') /\
    (exists l, arraysIn (nheader n') = arraysIn (nheader n) ++ l /\ Forall2 arraySaid (childrenOf "Array" ch) l) /\
    (maps = true -> exists l, imapsIn (nheader n') = imapsIn (nheader n) ++ l /\ Forall2 imapSaid (childrenOf "IndexMap" ch) l).
  Proof.
    unfold readChildren. induction ch as [|e ch IH]; intros n n' B F H; cbn [for_each] in H.
    - injection H as <-. split; [exact B|]. split; [|intros _]; exists []; (split; [now rewrite app_nil_r|constructor]).
    - destruct (nodeChild c strict n e _) as [m|] eqn:E; [|discriminate]. cbn [bind] in H.
      destruct (table_child c maps strict n e _ m B F E) as (Bm & (l & A & S) & I). assert (Fm : flagSet (nheader m) "rawHalfs" = false) by (unfold flagSet; fold (attrsOf m); rewrite (child_attrs _ _ _ _ _ _ E); exact F).
      destruct (IH m n' Bm Fm H) as (Bn & (l' & A' & S') & I'). split; [exact Bn|]. split.
      + exists (l ++ l'). split; [rewrite A', A; now rewrite app_assoc|]. unfold childrenOf. cbn [filter]. destruct (String.eqb _ "Array"); [apply (Forall2_app S S')|]. inversion S; subst. exact S'.
      + intro M. destruct (I M) as (k & K & Sk), (I' M) as (k' & K' & Sk'). exists (k ++ k'). split; [rewrite K', K; now rewrite app_assoc|]. unfold childrenOf. cbn [filter]. destruct (String.eqb _ "IndexMap"); [apply (Forall2_app Sk Sk')|]. inversion Sk; subst. exact Sk'.
  Qed.
  Lemma tables_read c (ld : string -> res (option (plist T))) strict e n : readItem c ld strict e = Ok (INode n) -> NoDup (map fst (x_attrib e)) -> ~ In "rawHalfs" (map fst (x_attrib e)) ->
    let ty := elementType (x_tag e) in
    (ty = "Matrix" \/ ty = "LUT1D" \/ ty = "LUT3D" -> Forall2 arraySaid (childrenOf "Array" (x_children e)) (arraysIn (nheader n))) /\
    (ty = "LUT1D" \/ ty = "LUT3D" -> Forall2 imapSaid (childrenOf "IndexMap" (x_children e)) (imapsIn (nheader n))).
  Proof.
    intros R D Raw. cbv zeta. destruct (item_node _ _ _ _ _ R) as (new & m & N & C & I).
    assert (F : forall b, bodyOf new = b -> h_elems (nheader new) = [] -> dget (attrsOf new) "rawHalfs" = None -> forall maps, tableBody maps b ->
      Forall2 arraySaid (childrenOf "Array" (x_children e)) (arraysIn (nheader n)) /\ (maps = true -> Forall2 imapSaid (childrenOf "IndexMap" (x_children e)) (imapsIn (nheader n)))).
    { intros b Bn En Rn maps M. destruct (table_children c ld strict maps (x_children e) (setAttrs new (x_attrib e)) m) as (Bm & (l & A & S) & Im).
      - now rewrite setAttrs_body, Bn.
      - rewrite setAttrs_eq. unfold flagSet. cbn [nheader h_attrs]. rewrite dget_fold by exact D. now rewrite (dget_out _ _ Raw), Rn.
      - exact C.
      - assert (n = m) by (apply (plain_init _ _ _ I); destruct maps; cbn [tableBody] in Bm; [destruct Bm as [-> | ->]|rewrite Bm]; exact Logic.I). subst m.
        rewrite setAttrs_eq in A, Im. unfold arraysIn at 2 in A. unfold imapsIn at 2 in Im. cbn [nheader h_elems] in A, Im. rewrite En in A, Im. cbn [flat_map app] in A, Im. split; [now rewrite A|]. intro Mt. destruct (Im Mt) as (k & -> & K). exact K. }
    split.
    - intros [Ty|[Ty|Ty]]; rewrite Ty in N; injection N as <-; [apply (F _ eq_refl eq_refl eq_refl false)|apply (F _ eq_refl eq_refl eq_refl true)|apply (F _ eq_refl eq_refl eq_refl true)]; cbn; tauto.
    - intros [Ty|Ty]; rewrite Ty in N; injection N as <-; apply (F _ eq_refl eq_refl eq_refl true); cbn; tauto.
  Qed.
End Written.
