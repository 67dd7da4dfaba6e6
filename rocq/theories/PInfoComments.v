(** The comments and index maps clfinfo shows. *)
From Coq Require Import List String ZArith Arith Lia Bool.
From Verif Require Import PBase PFacts SpecInfo PInfo.
Import ListNotations.
Local Open Scope string_scope.
Local Open Scope list_scope.

Section Comments.
  Context {T : Type} {NM : Num T} {X : NumText T}.
  Notation fine s := (snd s = None).
  Notation CS := (@commentsShown T).

  Lemma comments_app (a b : list (line T)) : CS (a ++ b) = CS a ++ CS b.
  Proof. apply flat_map_app. Qed.
  Definition mute (ls : list (line T)) : Prop := Forall (fun l => match l with LComment _ _ => False | _ => True end) ls.
  Lemma comments_none ls : mute ls -> CS ls = [].
  Proof. intro H. induction H as [|l t Hl _ IH]; [reflexivity|]. unfold commentsShown in *. cbn [flat_map]. rewrite IH. destruct l; (contradiction || reflexivity). Qed.
  Lemma andThen_mute (a b : shown T) : mute (fst a) -> mute (fst b) -> mute (fst (andThen a b)).
  Proof. intros Ha Hb. unfold andThen. destruct (snd a); [exact Ha|]. cbn. now apply Forall_app. Qed.
  Lemma showAll_mute {A} (f : A -> shown T) l : (forall x, mute (fst (f x))) -> mute (fst (showAll f l)).
  Proof. intro H. induction l as [|x t IH]; [constructor|]. now apply andThen_mute. Qed.
  Lemma map_mute {A} (f : A -> line T) l : (forall x, match f x with LComment _ _ => False | _ => True end) -> mute (map f l).
  Proof. intro H. apply Forall_map. apply Forall_forall. intros x _. apply H. Qed.
  Lemma row_mute a k n : mute (fst (showRow (T := T) a k n)).
  Proof. unfold showRow. destruct (mapM _ _); cbn; repeat constructor. Qed.
  Lemma array_mute (a : array T) : mute (fst (showArray a)).
  Proof.
    unfold showArray. apply andThen_mute; [repeat constructor|]. destruct (bind _ _) as [[k n]|]; [|constructor].
    destruct (Nat.ltb 10 n); [apply andThen_mute; [|apply andThen_mute; [repeat constructor|]]|]; apply showAll_mute; intro; apply row_mute.
  Qed.
  Lemma imap_mute (m : imap T) : mute (fst (showIMap m)).
  Proof.
    unfold showIMap. apply andThen_mute; [repeat constructor|]. destruct (Nat.ltb _ 15); [repeat constructor|].
    destruct (mapM _ _) as [pairs|]; [|constructor].
    assert (Q : forall n, mute (fst (sayOr (let* p := getn pairs n in Ok [LRow (T := T) p])))) by (intro n; destruct (getn pairs n); repeat constructor).
    apply andThen_mute; [|apply andThen_mute; [repeat constructor|]]; apply showAll_mute; intro; apply Q.
  Qed.

  Lemma plelem_comments (e : plelem) : CS (showPlelem e) = headComments [e].
  Proof.
    destruct e as [k x|cs]; [reflexivity|]. unfold headComments. cbn [flat_map]. rewrite app_nil_r. cbn [showPlelem].
    change (CS (map (fun '(k, x) => LComment k x) cs) = cs). induction cs as [|[k x] t IH]; [reflexivity|].
    cbn [map]. unfold commentsShown in *. cbn [flat_map app]. now rewrite IH.
  Qed.
  Lemma plelems_comments es : CS (List.concat (map (showPlelem (T := T)) es)) = headComments es.
  Proof.
    induction es as [|e t IH]; [reflexivity|]. cbn [map List.concat]. rewrite comments_app, plelem_comments, IH.
    unfold headComments. cbn [flat_map]. now rewrite app_nil_r.
  Qed.
  Notation ofElement := (fun e : element T => match e with EDesc x => [("Description", x)] | EMisc e => headComments [e] | _ => [] end).
  Lemma element_comments (e : element T) : CS (fst (showElement e)) = ofElement e.
  Proof.
    destruct e as [x|a|m|p]; cbn [showElement].
    - reflexivity.
    - apply comments_none, array_mute.
    - apply comments_none, imap_mute.
    - apply plelem_comments.
  Qed.
  Lemma header_comments type (h : header T) : fine (showHeader type h) -> CS (fst (showHeader type h)) = flat_map ofElement (h_elems h).
  Proof.
    intro F. unfold showHeader in *. rewrite andThen_lines by reflexivity. apply andThen_fine in F. destruct F as [_ F].
    rewrite comments_app. rewrite (comments_none (fst (say _))).
    - cbn [app]. rewrite showAll_lines by exact F. clear F. induction (h_elems h) as [|e t IH]; [reflexivity|].
      cbn [flat_map]. rewrite comments_app, element_comments, IH. reflexivity.
    - cbn [fst say]. constructor; [exact Logic.I|]. apply Forall_app. split; [apply map_mute; intros [k v]; exact Logic.I|].
      apply Forall_app. split; [apply map_mute; intros [k v]; exact Logic.I|apply map_mute; intros; exact Logic.I].
  Qed.
  Lemma head_comments at_ vs es ps : CS (showListHead (PList at_ vs es ps : plist T)) = headComments es.
  Proof.
    cbn [showListHead]. change (CS (map (fun '(k, v) => LAttribute k (AStr v)) at_ ++ map (fun '(k, x) => LElement k x) vs ++
      List.concat (map showPlelem es) ++ [LCaption ""; LCaption "Process Nodes"]) = headComments es).
    rewrite !comments_app, plelems_comments. rewrite (comments_none (map (fun '(k, v) => LAttribute k (AStr v)) at_)) by (apply map_mute; intros [k v]; exact Logic.I).
    rewrite (comments_none (map (fun '(k, x) => LElement k x) vs)) by (apply map_mute; intros [k v]; exact Logic.I).
    cbn. apply app_nil_r.
  Qed.

  Notation goCom := (fix go (ps : list (node T)) := match ps with [] => [] | p :: t => nodeComments p ++ go t end).
  Lemma go_com ps : goCom ps = flat_map nodeComments ps.
  Proof. induction ps as [|p t IH]; [reflexivity|]. cbn [flat_map]. now rewrite IH. Qed.
  Definition belowComments (b : body T) : list (string * option string) :=
    match b with BGroup ps => flat_map nodeComments ps
            | BReference _ (Some (PList _ _ es ps)) => headComments es ++ flat_map nodeComments ps | _ => [] end.
  Lemma nodeComments_eq h (b : body T) : nodeComments (Node h b) = flat_map ofElement (h_elems h) ++ belowComments b.
  Proof. destruct b as [| | | |v|v|ps|ps|p|w [[at_ vs es ps]|]|ps]; try reflexivity; cbn [nodeComments belowComments]; now rewrite go_com. Qed.
  Notation tells n := (fine (showNode n) -> CS (fst (showNode n)) = nodeComments n).
  Lemma nodes_comments (ps : list (node T)) : Forall (fun n => tells n) ps ->
    fine (showNodes ps) -> CS (fst (showNodes ps)) = flat_map nodeComments ps.
  Proof.
    intros H F. unfold showNodes in *. rewrite showAll_lines by exact F. rewrite showAll_fine in F.
    induction H as [|n t Hn _ IH]; [reflexivity|]. inversion F as [|? ? F1 F2]; subst. cbn [flat_map]. rewrite comments_app. f_equal; [|auto].
    apply andThen_fine in F1 as [F1 _]. rewrite andThen_lines by exact F1. rewrite comments_app, (Hn F1). cbn. apply app_nil_r.
  Qed.
  Lemma child_comments (b : body T) : Forall (fun n => tells n) (below b) ->
    fine (childShown b) -> CS (fst (childShown b)) = belowComments b.
  Proof.
    intros H F. destruct b as [| | | |v|v|ps|ps|p|w [[at_ vs es ps]|]|ps]; cbn [childShown below belowComments] in *; try reflexivity.
    - apply comments_none. destruct v as [[|] [|] [|] [|]]; repeat constructor.
    - apply comments_none. destruct v as [[|] [|] [|] [|]]; repeat constructor.
    - apply comments_none. unfold showGamma. destruct (gammaParams ps) as [[g o]|]; cbn; repeat constructor.
    - apply comments_none. unfold showLog. destruct (logParams ps); cbn; repeat constructor.
    - rewrite andThen_fine in F. destruct F as [_ F]. rewrite andThen_lines by reflexivity. rewrite comments_app. cbn [fst say app].
      unfold showList in *. apply andThen_fine in F. destruct F as [_ F]. cbn [procs_of] in F. rewrite andThen_lines by reflexivity. rewrite comments_app. cbn [fst say procs_of].
      rewrite head_comments. rewrite (nodes_comments ps H F). reflexivity.
    - apply andThen_fine in F. destruct F as [_ F]. rewrite andThen_lines by reflexivity. rewrite comments_app. rewrite (nodes_comments ps H F). reflexivity.
  Qed.
  Lemma node_comments (n : node T) : tells n.
  Proof.
    revert n. apply (below_ind (fun n => tells n)). intros h b H F. rewrite showNode_eq in *. apply andThen_fine in F. destruct F as [F1 F].
    apply andThen_fine in F. destruct F as [F2 _]. rewrite andThen_lines by exact F1. rewrite (andThen_lines (childShown b)) by exact F2.
    rewrite !comments_app, nodeComments_eq, (header_comments _ _ F1), (child_comments b H F2). cbn. now rewrite app_nil_r.
  Qed.
  Theorem list_comments (l : plist T) : fine (showList l) -> CS (fst (showList l)) = listComments l.
  Proof.
    destruct l as [at_ vs es ps]. unfold showList. intro F. apply andThen_fine in F. destruct F as [_ F]. rewrite andThen_lines by reflexivity.
    rewrite comments_app. cbn [fst say procs_of listComments] in *. rewrite head_comments. f_equal.
    apply nodes_comments; [|exact F]. apply Forall_forall. intros n _. apply node_comments.
  Qed.

  Lemma padZip_combine (a b : list T) : List.length a = List.length b -> padZip a b = map (fun p => (Some (fst p), Some (snd p))) (combine a b).
  Proof. revert b. induction a as [|x t IH]; intros [|y u] E; try discriminate; [reflexivity|]. cbn. rewrite IH by auto. reflexivity. Qed.
  Lemma words_combine (ps : list (T * T)) : mapM pairWords (map (fun p => (Some (fst p), Some (snd p))) ps) =
    Ok (map (fun p => [formatFixed 9 (fst p); formatFixed 9 (snd p)]) ps).
  Proof. induction ps as [|p t IH]; [reflexivity|]. cbn [map mapM pairWords bind]. rewrite IH. reflexivity. Qed.
  Lemma entry_lines (ps : list (T * T)) i : i < List.length ps ->
    sayOr (let* p := getn (map (fun p => [formatFixed 9 (fst p); formatFixed 9 (snd p)]) ps) i in Ok [LRow (T := T) p]) =
    (flat_map (fun p => [LRow [formatFixed 9 (fst p); formatFixed 9 (snd p)]]) (firstn 1 (skipn i ps)), None).
  Proof.
    revert i. induction ps as [|p t IH]; intros i H; [cbn in H; lia|]. destruct i as [|i]; [reflexivity|]. cbn [skipn]. rewrite <- IH by (cbn in H; lia). reflexivity.
  Qed.
  Theorem imap_shown (m : imap T) : List.length (im_in m) = List.length (im_out m) ->
    showIMap m = ([LCaption "IndexMap"; LLength (List.length (im_in m)); LCaption "Values"] ++ mapLines m, None).
  Proof.
    intro E. unfold showIMap, mapLines. rewrite (padZip_combine _ _ E). set (n := List.length (im_in m)). set (ps := combine (im_in m) (im_out m)).
    assert (Lp : List.length ps = n) by (unfold ps, n; rewrite combine_length; lia).
    destruct (Nat.ltb_spec n 15) as [S|S]; [reflexivity|]. rewrite words_combine.
    replace (seq (n - 3) 3) with [n - 3; n - 2; n - 1] by (cbn [seq]; repeat f_equal; lia). cbn [seq showAll].
    rewrite !entry_lines by lia. unfold andThen. cbn [fst snd say app flat_map]. rewrite !app_nil_r, <- !app_assoc. reflexivity.
  Qed.
End Comments.
