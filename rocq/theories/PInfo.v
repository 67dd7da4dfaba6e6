(** What clfinfo shows. *)
From Coq Require Import List String ZArith Arith Lia Bool.
From Verif Require Import PBase PFacts PChain PXmlArray PXmlWrite PXmlIeee PXmlInline SpecInfo.
Import ListNotations.
Local Open Scope string_scope.
Local Open Scope list_scope.

Section Shown.
  Context {T : Type} {NM : Num T} {X : NumText T}.
  Notation fine s := (snd s = None).

  (** * Printing one thing after another *)
  Lemma andThen_fine (a b : shown T) : fine (andThen a b) <-> fine a /\ fine b.
  Proof. unfold andThen. destruct a as [la [e|]], b as [lb eb]; cbn; split; try discriminate; tauto || (intros [? ?]; discriminate). Qed.
  Lemma andThen_lines (a b : shown T) : fine a -> fst (andThen a b) = fst a ++ fst b.
  Proof. intro H. unfold andThen. now rewrite H. Qed.
  Lemma showAll_fine {A} (f : A -> shown T) l : fine (showAll f l) <-> Forall (fun x => fine (f x)) l.
  Proof.
    induction l as [|x t IH]; cbn [showAll]; [split; [constructor|reflexivity]|]. rewrite andThen_fine, Forall_cons_iff, IH. reflexivity.
  Qed.
  Lemma showAll_lines {A} (f : A -> shown T) l : fine (showAll f l) -> fst (showAll f l) = flat_map (fun x => fst (f x)) l.
  Proof.
    induction l as [|x t IH]; [reflexivity|]. cbn [showAll flat_map]. intro H. apply andThen_fine in H as [H1 H2].
    rewrite andThen_lines by exact H1. now rewrite IH.
  Qed.
  Lemma sayOr_fine (r : res (list (line T))) : fine (sayOr r) <-> is_ok r.
  Proof. destruct r; cbn; split; try discriminate; try (intros [y E]; discriminate); try reflexivity. eexists. reflexivity. Qed.

  (** No element names a node type. *)
  Lemma types_app (a b : list (line T)) : typesShown (a ++ b) = typesShown a ++ typesShown b.
  Proof. apply flat_map_app. Qed.
  Lemma types_none (ls : list (line T)) : Forall (fun l => match l with LNode _ => False | _ => True end) ls -> typesShown ls = [].
  Proof. intro H. induction H as [|l t Hl _ IH]; [reflexivity|]. unfold typesShown in *. cbn [flat_map]. rewrite IH. destruct l; (contradiction || reflexivity). Qed.
  Definition quiet (ls : list (line T)) : Prop := Forall (fun l => match l with LNode _ => False | _ => True end) ls.
  Lemma andThen_quiet (a b : shown T) : quiet (fst a) -> quiet (fst b) -> quiet (fst (andThen a b)).
  Proof. intros Ha Hb. unfold andThen. destruct (snd a); [exact Ha|]. cbn. now apply Forall_app. Qed.
  Lemma showAll_quiet {A} (f : A -> shown T) l : (forall x, quiet (fst (f x))) -> quiet (fst (showAll f l)).
  Proof. intro H. induction l as [|x t IH]; [constructor|]. now apply andThen_quiet. Qed.
  Lemma map_quiet {A} (f : A -> line T) l : (forall x, match f x with LNode _ => False | _ => True end) -> quiet (map f l).
  Proof. intro H. apply Forall_map. apply Forall_forall. intros x _. apply H. Qed.

  Lemma row_quiet a k n : quiet (fst (showRow (T := T) a k n)).
  Proof. unfold showRow. destruct (mapM _ _); cbn; repeat constructor. Qed.
  Lemma element_quiet (e : element T) : quiet (fst (showElement e)).
  Proof.
    destruct e as [d|a|m|[kind x|cs]]; cbn [showElement say fst showPlelem].
    - repeat constructor.
    - unfold showArray. apply andThen_quiet; [repeat constructor|]. destruct (bind _ _) as [[k n]|]; [|constructor].
      destruct (Nat.ltb 10 n); [apply andThen_quiet; [|apply andThen_quiet; [repeat constructor|]]|]; apply showAll_quiet; intro; apply row_quiet.
    - unfold showIMap. apply andThen_quiet; [repeat constructor|]. destruct (Nat.ltb _ 15); [repeat constructor|].
      destruct (mapM _ _) as [pairs|]; [|constructor].
      assert (Q : forall n, quiet (fst (sayOr (let* p := getn pairs n in Ok [LRow (T := T) p])))) by (intro n; destruct (getn pairs n); repeat constructor).
      apply andThen_quiet; [|apply andThen_quiet; [repeat constructor|]]; apply showAll_quiet; intro; apply Q.
    - repeat constructor.
    - constructor; [exact Logic.I|]. apply map_quiet. intros [k x]. exact Logic.I.
  Qed.
  Lemma plelems_quiet (elems : list plelem) : quiet (List.concat (map (showPlelem (T := T)) elems)).
  Proof.
    induction elems as [|e t IH]; [constructor|]. cbn [map List.concat]. apply Forall_app. split; [|exact IH].
    exact (element_quiet (EMisc e)).
  Qed.

  (** * Tables *)
  Lemma slice_row k i (vs : list T) : slice vs (i * k) ((i + 1) * k) = tableRow k i vs.
  Proof. unfold slice, tableRow. f_equal. lia. Qed.
  Lemma pyint_fin (x : T) : is_ok (pyint x) <-> finite x.
  Proof.
    unfold pyint, finite, is_ok. destruct (nisnan x), (nisinf x); split; try (intros [y E]; discriminate); try (intros [? ?]; discriminate);
      [auto|intros _; eexists; reflexivity].
  Qed.
  Lemma pyint_text (x : T) z : pyint x = Ok z -> z = ntrunc x.
  Proof. unfold pyint. destruct (nisnan x); [discriminate|]. destruct (nisinf x); [discriminate|]. intro E. now apply Ok_inj in E. Qed.
  Lemma row_fine (a : array T) k i : fine (showRow a k i) <-> (a_int a = true -> Forall finite (tableRow k i (a_vals a))).
  Proof.
    unfold showRow. rewrite slice_row, sayOr_fine. generalize (tableRow k i (a_vals a)) as vs. intro vs.
    transitivity (is_ok (mapM (fun x => if a_int a then let* z := pyint x in Ok (zText z) else Ok (formatFixed 9 x)) vs)).
    { destruct (mapM _ vs); cbn [bind]; split; intros [y E]; try discriminate; eexists; reflexivity. }
    rewrite mapM_ok_iff, Forall_forall. destruct (a_int a).
    - split.
      + intros H _ x Hx. apply pyint_fin. destruct (H x Hx) as [y E]. destruct (pyint x); [eexists; reflexivity|discriminate].
      + intros H x Hx. specialize (H eq_refl x Hx). apply pyint_fin in H as [z ->]. eexists. reflexivity.
    - split; [discriminate|]. intros _ x _. eexists. reflexivity.
  Qed.
  Lemma row_lines (a : array T) k i : fine (showRow a k i) -> fst (showRow a k i) = [LRow (map (wordShown (a_int a)) (tableRow k i (a_vals a)))].
  Proof.
    unfold showRow. rewrite slice_row. generalize (tableRow k i (a_vals a)) as vs. intros vs H.
    assert (M : forall ws, mapM (fun x => if a_int a then let* z := pyint x in Ok (zText z) else Ok (formatFixed 9 x)) vs = Ok ws ->
                ws = map (wordShown (a_int a)) vs).
    { clear. induction vs as [|x t IH]; intros ws E; [now apply Ok_inj in E|]. cbn [mapM] in E.
      destruct (a_int a) eqn:I; cbn [bind] in E.
      - destruct (pyint x) as [z|] eqn:P; [|discriminate]. cbn [bind] in E. apply pyint_text in P. subst z.
        destruct (mapM _ t) as [ws'|]; [|discriminate]. cbn [bind] in E. apply Ok_inj in E. subst ws. cbn [map wordShown]. now rewrite (IH _ eq_refl).
      - destruct (mapM _ t) as [ws'|]; [|discriminate]. cbn [bind] in E. apply Ok_inj in E. subst ws. cbn [map wordShown]. now rewrite (IH _ eq_refl). }
    destruct (mapM _ vs) as [ws|] eqn:E; [|discriminate H]. cbn. now rewrite (M ws eq_refl).
  Qed.

  Notation measured a := (let* columns := arrayColumns (a_dims a) in
      let* rows := pydiv (List.length (a_vals a)) columns in Ok (columns, rows)).
  Lemma columns_rows (a : array T) k : rowLength (a_dims a) = Some (S k) -> measured a = Ok (S k, (List.length (a_vals a) / S k)%nat).
  Proof. intro E. apply columns_ok in E. now rewrite E. Qed.
  Lemma columns_bad (a : array T) : match rowLength (a_dims a) with Some (S _) => False | _ => True end -> exists e, measured a = Err e.
  Proof.
    intro H. destruct (arrayColumns (a_dims a)) as [[|k]|e] eqn:C.
    - eexists. reflexivity.
    - apply columns_ok in C. rewrite C in H. contradiction.
    - eexists. reflexivity.
  Qed.
  Lemma rows_flat (a : array T) k is_ : Forall (fun i => fine (showRow a k i)) is_ ->
    flat_map (fun i => fst (showRow a k i)) is_ = map (fun i => LRow (map (wordShown (a_int a)) (tableRow k i (a_vals a)))) is_.
  Proof. intro H. induction H as [|i t Hi _ IH]; [reflexivity|]. cbn [flat_map map]. rewrite (row_lines _ _ _ Hi), IH. reflexivity. Qed.
  Lemma array_fine (a : array T) : fine (showArray a) <-> canShow (EArray a).
  Proof.
    unfold showArray. rewrite andThen_fine. cbn [canShow].
    assert (Q : forall k is_, Forall (fun i => fine (showRow a k i)) is_ <->
              (a_int a = true -> forall i x, In i is_ -> In x (tableRow k i (a_vals a)) -> finite x)).
    { intros k is_. rewrite Forall_forall. split.
      - intros H Hi i x Ii Ix. specialize (H i Ii). apply row_fine in H; [|exact Hi]. rewrite Forall_forall in H. auto.
      - intros H i Ii. apply row_fine. intro Hi. apply Forall_forall. intros x Ix. exact (H Hi i x Ii Ix). }
    destruct (rowLength (a_dims a)) as [[|k]|] eqn:E.
    - destruct (columns_bad a) as [e ->]; [now rewrite E|]. split; [intros [_ F]; discriminate|intros (k & [= <-] & F & _); contradiction].
    - rewrite (columns_rows a k E). set (n := (List.length (a_vals a) / S k)%nat).
      assert (R : fine (if Nat.ltb 10 n then andThen (showAll (showRow a (S k)) (seq 0 3)) (andThen (say [LDots]) (showAll (showRow a (S k)) (seq (n - 3) 3)))
                         else showAll (showRow a (S k)) (seq 0 n)) <-> Forall (fun i => fine (showRow a (S k) i)) (rowsShown n)).
      { unfold rowsShown. destruct (Nat.ltb_spec 10 n) as [G|G].
        - rewrite (proj2 (Nat.leb_gt n 10) G). rewrite !andThen_fine, !showAll_fine.
          replace (seq (n - 3) 3) with [n - 3; n - 2; n - 1] by (cbn [seq]; repeat f_equal; lia). cbn [seq].
          change [0; 1; 2; n - 3; n - 2; n - 1] with ([0; 1; 2] ++ [n - 3; n - 2; n - 1]). rewrite Forall_app. cbn [snd say]. tauto.
        - rewrite (proj2 (Nat.leb_le n 10)) by lia. apply showAll_fine. }
      rewrite R, Q. cbn [say snd]. split.
      + intros [_ H]. exists (S k). split; [reflexivity|]. split; [discriminate|exact H].
      + intros (k' & [= <-] & _ & H). split; [reflexivity|exact H].
    - destruct (columns_bad a) as [e ->]; [now rewrite E|]. split; [intros [_ F]; discriminate|intros (k & F & _); discriminate].
  Qed.
  Lemma array_lines (a : array T) k : rowLength (a_dims a) = Some k -> fine (showArray a) ->
    fst (showArray a) = [LCaption "Array"; LDimensions (a_dims a); LCaption "Values"] ++ tableLines a k.
  Proof.
    intros E F. unfold showArray in *. apply andThen_fine in F as [_ F]. rewrite andThen_lines by reflexivity. destruct k as [|k].
    { destruct (columns_bad a) as [e B]; [now rewrite E|]. rewrite B in F. discriminate F. }
    rewrite (columns_rows a k E) in *. set (n := (List.length (a_vals a) / S k)%nat) in *. cbn [fst say]. f_equal. unfold tableLines. fold n.
    destruct (Nat.ltb_spec 10 n) as [G|G].
    - rewrite (proj2 (Nat.leb_gt n 10) G). apply andThen_fine in F as [F1 F]. apply andThen_fine in F as [_ F2].
      rewrite !andThen_lines by (exact F1 || reflexivity). rewrite !showAll_lines by assumption. cbn [fst say]. rewrite !rows_flat by (now apply showAll_fine).
      replace (seq (n - 3) 3) with [n - 3; n - 2; n - 1] by (cbn [seq]; repeat f_equal; lia). reflexivity.
    - rewrite (proj2 (Nat.leb_le n 10)) by lia. rewrite showAll_lines by exact F. apply rows_flat. now apply showAll_fine.
  Qed.

  (** * Index maps *)
  Lemma pairs_ok (l1 l2 : list T) : is_ok (mapM pairWords (padZip l1 l2)) <-> List.length l1 = List.length l2.
  Proof.
    revert l2. induction l1 as [|x t IH]; intros [|y t2]; cbn [padZip].
    - split; [reflexivity|eexists; reflexivity].
    - split; [intros [z E]; discriminate E|discriminate].
    - split; [intros [z E]; discriminate E|discriminate].
    - cbn [mapM pairWords bind List.length]. rewrite Nat.succ_inj_wd, <- IH. destruct (mapM pairWords (padZip t t2)); cbn [bind];
        split; intros [z E]; try discriminate; eexists; reflexivity.
  Qed.
  Lemma padZip_length (l1 l2 : list T) : List.length l1 = List.length l2 -> List.length (padZip l1 l2) = List.length l1.
  Proof. revert l2. induction l1 as [|x t IH]; intros [|y t2] E; try discriminate; [reflexivity|]. cbn. rewrite IH; auto. Qed.
  Lemma imap_fine (m : imap T) : fine (showIMap m) <-> canShow (EIndexMap m).
  Proof.
    unfold showIMap. rewrite andThen_fine. cbn [canShow say snd]. destruct (Nat.ltb_spec (List.length (im_in m)) 15) as [S|S]; [cbn; tauto|].
    pose proof (pairs_ok (im_in m) (im_out m)) as P. destruct (mapM pairWords (padZip (im_in m) (im_out m))) as [ps|] eqn:M.
    - assert (E : List.length (im_in m) = List.length (im_out m)) by (apply P; eexists; reflexivity).
      assert (Lp : List.length ps = List.length (im_in m)) by (rewrite (mapM_length _ _ _ M); now apply padZip_length).
      split; [auto|]. intros _. split; [reflexivity|]. rewrite !andThen_fine, !showAll_fine.
      assert (Q : forall n, n < List.length (im_in m) -> fine (sayOr (let* p := getn ps n in Ok [LRow (T := T) p]))).
      { intros n Hn. unfold getn. destruct (nth_error ps n) eqn:E'; [reflexivity|]. apply nth_error_None in E'. lia. }
      split; [|split; [reflexivity|]]; apply Forall_forall; intros i Hi; apply in_seq in Hi; apply Q; lia.
    - split; [intros [_ F]; discriminate|]. intros [F|F]; [lia|]. apply P in F as [y F]. discriminate.
  Qed.
  Lemma element_fine (e : element T) : fine (showElement e) <-> canShow e.
  Proof. destruct e as [d|a|m|p]; [cbn; tauto|apply array_fine|apply imap_fine|cbn; tauto]. Qed.

  (** * Curves *)
  Lemma channel_ok c : is_ok (channelIndex c) <-> c = "R" \/ c = "G" \/ c = "B".
  Proof.
    unfold channelIndex. destruct (String.eqb_spec c "R"); [split; [auto|eexists; reflexivity]|].
    destruct (String.eqb_spec c "G"); [split; [auto|eexists; reflexivity]|].
    destruct (String.eqb_spec c "B"); [split; [auto|eexists; reflexivity]|]. split; [intros [y E]; discriminate|tauto].
  Qed.
  Lemma channel_lt c k : channelIndex c = Ok k -> k < 3.
  Proof.
    unfold channelIndex. destruct (String.eqb c "R"); [|destruct (String.eqb c "G"); [|destruct (String.eqb c "B"); [|discriminate]]];
      intro E; apply Ok_inj in E; subst; lia.
  Qed.
  Lemma setn_ok {A} (l : list A) k x : k < List.length l -> exists l', setn l k x = Ok l' /\ List.length l' = List.length l.
  Proof.
    intro H. destruct (setn l k x) as [l'|e] eqn:E.
    - exists l'. split; [reflexivity|]. now apply setn_length in E.
    - rewrite setn_lt in E by exact H. discriminate.
  Qed.
  Lemma gamma_fine (ps : list (gparam T)) : fine (showGamma ps) <-> channelsKnown (map g_chan ps).
  Proof.
    unfold showGamma. rewrite sayOr_fine.
    transitivity (is_ok (gammaParams ps)).
    { destruct (gammaParams ps) as [[g o]|]; cbn [bind]; split; intros [y E]; try discriminate; eexists; reflexivity. }
    unfold gammaParams, channelsKnown. assert (L0 : List.length [n1; n1; n1] = 3 /\ List.length [n0; n0; n0] = 3) by (split; reflexivity).
    revert L0. generalize [n1; n1; n1] [n0; n0; n0]. induction ps as [|p t IH]; intros g o [Lg Lo].
    { cbn. split; [constructor|eexists; reflexivity]. }
    cbn [for_each map]. rewrite Forall_cons_iff. destruct (g_chan p) as [c|].
    - destruct (channelIndex c) as [k|e] eqn:C; cbn [bind].
      + destruct (setn_ok g k (g_gamma p)) as (g' & -> & Lg'); [rewrite Lg; now apply channel_lt in C|]. cbn [bind].
        destruct (setn_ok o k (g_offset p)) as (o' & -> & Lo'); [rewrite Lo; now apply channel_lt in C|]. cbn [bind].
        rewrite IH by (split; congruence). assert (K : is_ok (channelIndex c)) by (rewrite C; eexists; reflexivity). apply channel_ok in K.
        intuition congruence.
      + split; [intros [y E]; discriminate|]. intros [K _].
        assert (D : is_ok (channelIndex c)) by (apply channel_ok; intuition congruence). rewrite C in D. destruct D; discriminate.
    - cbn [bind]. rewrite IH by (split; reflexivity). intuition.
  Qed.
  Lemma log_fine (ps : list (lparam T)) : fine (showLog ps) <-> channelsKnown (map l_chan ps).
  Proof.
    unfold showLog. rewrite sayOr_fine.
    transitivity (is_ok (logParams ps)).
    { destruct (logParams ps) as [cs|]; cbn [bind]; split; intros [y E]; try discriminate; eexists; reflexivity. }
    unfold logParams, channelsKnown. assert (L0 : List.length [lchanDefault; lchanDefault; lchanDefault] = 3) by reflexivity.
    revert L0. generalize [lchanDefault; lchanDefault; lchanDefault]. induction ps as [|p t IH]; intros cs Lc.
    { cbn. split; [constructor|eexists; reflexivity]. }
    cbn [for_each map]. rewrite Forall_cons_iff. destruct (l_chan p) as [c|].
    - destruct (channelIndex c) as [k|e] eqn:C; cbn [bind].
      + destruct (setn_ok cs k (lchanOf p)) as (cs' & -> & Lc'); [rewrite Lc; now apply channel_lt in C|]. cbn [bind].
        rewrite IH by congruence. assert (K : is_ok (channelIndex c)) by (rewrite C; eexists; reflexivity). apply channel_ok in K.
        intuition congruence.
      + split; [intros [y E]; discriminate|]. intros [K _].
        assert (D : is_ok (channelIndex c)) by (apply channel_ok; intuition congruence). rewrite C in D. destruct D; discriminate.
    - cbn [bind]. rewrite IH by reflexivity. intuition.
  Qed.

  (** * Nodes *)
  Notation goShow := (fix go (ps : list (node T)) : shown T :=
    match ps with [] => say [] | p :: t => andThen (andThen (showNode p) (say [LCaption ""])) (go t) end).
  Notation goDeep := (fix go (ps : list (node T)) := match ps with [] => [] | p :: t => deepNodes p ++ go t end).
  Lemma go_showNodes ps : goShow ps = showNodes ps.
  Proof. induction ps as [|p t IH]; [reflexivity|]. cbn [showNodes showAll]. unfold showNodes in IH. now rewrite <- IH. Qed.
  Lemma go_deep ps : goDeep ps = flat_map deepNodes ps.
  Proof. induction ps as [|p t IH]; [reflexivity|]. cbn [flat_map]. now rewrite IH. Qed.

  Definition childShown (b : body T) : shown T :=
    match b with
    | BRange | BMatrix | BLUT1D | BLUT3D => say []
    | BCDL v | BColorCorrection v => say (showCdl v)
    | BGamma ps => showGamma ps
    | BLog ps => showLog ps
    | BExposureContrast p => say (showEC p)
    | BReference _ None => andThen (say [LResolved]) (say [])
    | BReference _ (Some l) => andThen (say [LResolved]) (showList l)
    | BGroup ps => andThen (say [LCaption "Process Nodes"]) (showNodes ps)
    end.
  Lemma showNode_eq h (b : body T) : showNode (Node h b) = andThen (showHeader (nodeTag b) h) (andThen (childShown b) (say [LCaption ""])).
  Proof.
    destruct b as [| | | |v|v|ps|ps|p|w [[at_ vs es ps]|]|ps]; try reflexivity.
    - cbn [showNode childShown]. rewrite go_showNodes. reflexivity.
    - cbn [showNode childShown]. rewrite go_showNodes. reflexivity.
  Qed.
  Definition below (b : body T) : list (node T) :=
    match b with BGroup ps => ps | BReference _ (Some (PList _ _ _ ps)) => ps | _ => [] end.
  Lemma deepNodes_eq h (b : body T) : deepNodes (Node h b) = Node h b :: flat_map deepNodes (below b).
  Proof. destruct b as [| | | |v|v|ps|ps|p|w [[at_ vs es ps]|]|ps]; try reflexivity; cbn [deepNodes below]; now rewrite go_deep. Qed.
  Lemma below_ind (P : node T -> Prop) : (forall h b, Forall P (below b) -> P (Node h b)) -> forall n, P n.
  Proof.
    intros H n. induction n as [h b HG HR] using node_deep_ind. apply H.
    destruct b as [| | | |v|v|ps|ps|p|w [[at_ vs es ps]|]|ps]; try constructor; [exact (HR _ _ _ _ _ eq_refl)|exact (HG _ eq_refl)].
  Qed.

  Lemma header_fine type (h : header T) : fine (showHeader type h) <-> Forall canShow (h_elems h).
  Proof.
    unfold showHeader. rewrite andThen_fine, showAll_fine. cbn [say snd]. split.
    - intros [_ F]. eapply Forall_impl; [|exact F]. intro e. apply element_fine.
    - intro F. split; [reflexivity|]. eapply Forall_impl; [|exact F]. intro e. apply element_fine.
  Qed.
  Lemma nodes_fine_of (ps : list (node T)) : Forall (fun n => fine (showNode n) <-> Forall canShowNode (deepNodes n)) ps ->
    (fine (showNodes ps) <-> Forall canShowNode (flat_map deepNodes ps)).
  Proof.
    intro H. unfold showNodes. rewrite showAll_fine. induction H as [|n t Hn _ IH]; [split; constructor|]. cbn [flat_map].
    rewrite Forall_app, Forall_cons_iff, IH, andThen_fine, Hn. cbn. tauto.
  Qed.
  Lemma child_fine (b : body T) : Forall (fun n => fine (showNode n) <-> Forall canShowNode (deepNodes n)) (below b) ->
    (fine (childShown b) <->
     match b with BGamma ps => channelsKnown (map g_chan ps) | BLog ps => channelsKnown (map l_chan ps) | _ => True end /\
     Forall canShowNode (flat_map deepNodes (below b))).
  Proof.
    intro H. destruct b as [| | | |v|v|ps|ps|p|w [[at_ vs es ps]|]|ps]; cbn [childShown below flat_map].
    1-6,9,11: cbn; split; [intros _; split; [exact Logic.I|constructor]|reflexivity].
    - rewrite gamma_fine. split; [intro; split; [assumption|constructor]|tauto].
    - rewrite log_fine. split; [intro; split; [assumption|constructor]|tauto].
    - rewrite andThen_fine. unfold showList. rewrite andThen_fine. cbn [procs_of say snd]. rewrite (nodes_fine_of ps H). tauto.
    - rewrite andThen_fine, (nodes_fine_of ps H). cbn [say snd]. tauto.
  Qed.
  Theorem node_fine (n : node T) : fine (showNode n) <-> Forall canShowNode (deepNodes n).
  Proof.
    revert n. apply below_ind. intros h b H. rewrite showNode_eq, deepNodes_eq, !andThen_fine, header_fine, (child_fine b H), Forall_cons_iff.
    cbn [canShowNode say snd]. tauto.
  Qed.
  Theorem list_fine (l : plist T) : fine (showList l) <-> Forall canShowNode (nodesOf l).
  Proof.
    unfold showList, nodesOf. rewrite andThen_fine. cbn [say snd]. rewrite nodes_fine_of; [tauto|].
    apply Forall_forall. intros n _. apply node_fine.
  Qed.

  (** * What is named *)
  Lemma header_lines type (h : header T) : fine (showHeader type h) ->
    typesShown (fst (showHeader type h)) = [type].
  Proof.
    intro F. unfold showHeader in *. rewrite andThen_lines by reflexivity. rewrite types_app. cbn [fst say].
    rewrite (types_none (fst (showAll _ _))) by (apply showAll_quiet, element_quiet). rewrite app_nil_r. cbn. f_equal.
    apply types_none. apply Forall_app. split; [apply map_quiet; intros [k v]; exact Logic.I|].
    apply Forall_app. split; [apply map_quiet; intros [k v]; exact Logic.I|apply map_quiet; intros; exact Logic.I].
  Qed.
  Lemma listHead_quiet (l : plist T) : quiet (showListHead l).
  Proof.
    destruct l as [at_ vs es ps]. cbn [showListHead]. constructor; [exact Logic.I|].
    apply Forall_app. split; [apply map_quiet; intros [k v]; exact Logic.I|].
    apply Forall_app. split; [apply map_quiet; intros [k v]; exact Logic.I|].
    apply Forall_app. split; [apply plelems_quiet|repeat constructor].
  Qed.
  Definition typeOf (n : node T) : string := nodeTag (nbody n).
  Lemma nodes_types_of (ps : list (node T)) : Forall (fun n => fine (showNode n) -> typesShown (fst (showNode n)) = map typeOf (deepNodes n)) ps ->
    fine (showNodes ps) -> typesShown (fst (showNodes ps)) = map typeOf (flat_map deepNodes ps).
  Proof.
    intros H F. unfold showNodes in *. rewrite showAll_lines by exact F. rewrite showAll_fine in F.
    induction H as [|n t Hn _ IH]; [reflexivity|]. inversion F as [|? ? F1 F2]; subst. cbn [flat_map]. rewrite types_app, map_app. f_equal; [|auto].
    apply andThen_fine in F1 as [F1 _]. rewrite andThen_lines by exact F1. rewrite types_app, (Hn F1). cbn. apply app_nil_r.
  Qed.
  Lemma child_types (b : body T) : Forall (fun n => fine (showNode n) -> typesShown (fst (showNode n)) = map typeOf (deepNodes n)) (below b) ->
    fine (childShown b) -> typesShown (fst (childShown b)) = map typeOf (flat_map deepNodes (below b)).
  Proof.
    intros H F. destruct b as [| | | |v|v|ps|ps|p|w [[at_ vs es ps]|]|ps]; cbn [childShown below flat_map map] in *; try reflexivity.
    - apply types_none. destruct v as [[|] [|] [|] [|]]; repeat constructor.
    - apply types_none. destruct v as [[|] [|] [|] [|]]; repeat constructor.
    - apply types_none. unfold showGamma. destruct (gammaParams ps) as [[g o]|]; cbn; repeat constructor.
    - apply types_none. unfold showLog. destruct (logParams ps); cbn; repeat constructor.
    - rewrite andThen_lines by reflexivity. rewrite types_app.
      apply andThen_fine in F as [_ F]. unfold showList in *. apply andThen_fine in F as [_ F]. rewrite andThen_lines by reflexivity.
      rewrite types_app. cbn [fst say]. rewrite (types_none (showListHead _)) by apply listHead_quiet. cbn [app procs_of] in *.
      exact (nodes_types_of ps H F).
    - rewrite andThen_lines by reflexivity. rewrite types_app. apply andThen_fine in F as [_ F].
      exact (nodes_types_of ps H F).
  Qed.
  Lemma node_types (n : node T) : fine (showNode n) -> typesShown (fst (showNode n)) = map typeOf (deepNodes n).
  Proof.
    revert n. apply (below_ind (fun n => fine (showNode n) -> typesShown (fst (showNode n)) = map typeOf (deepNodes n))). intros h b H F. rewrite showNode_eq in F |- *. rewrite deepNodes_eq. apply andThen_fine in F as [F1 F].
    apply andThen_fine in F as [F2 _]. rewrite andThen_lines by exact F1. rewrite andThen_lines by exact F2.
    rewrite !types_app, (header_lines _ _ F1), (child_types b H F2). cbn. now rewrite app_nil_r.
  Qed.
  Theorem list_types (l : plist T) : fine (showList l) -> typesShown (fst (showList l)) = map typeOf (nodesOf l).
  Proof.
    unfold showList, nodesOf. intro F. apply andThen_fine in F as [_ F]. rewrite andThen_lines by reflexivity. rewrite types_app. cbn [fst say].
    rewrite (types_none (showListHead _)) by apply listHead_quiet. cbn [app]. apply nodes_types_of; [|exact F].
    apply Forall_forall. intros n _. apply node_types.
  Qed.

  (** * Blocks *)
  Definition hasBlock (blk ls : list (line T)) : Prop := exists A B, ls = A ++ blk ++ B.
  Lemma block_left blk a b : hasBlock blk a -> hasBlock blk (a ++ b).
  Proof. intros (A & B & ->). exists A, (B ++ b). now rewrite <- !app_assoc. Qed.
  Lemma block_right blk a b : hasBlock blk b -> hasBlock blk (a ++ b).
  Proof. intros (A & B & ->). exists (a ++ A), B. now rewrite <- !app_assoc. Qed.
  Lemma header_block h (b : body T) : fine (showHeader (nodeTag b) h) ->
    exists B, fst (showHeader (nodeTag b) h) = nodeLines (Node h b) ++ B.
  Proof.
    intro F. unfold showHeader in *. rewrite andThen_lines by reflexivity. eexists. cbn [fst say nodeLines]. f_equal. f_equal. f_equal.
    - apply map_ext. now intros [k v].
    - f_equal. apply map_ext. now intros [k v].
  Qed.
  Lemma nodes_block_of (ps : list (node T)) : Forall (fun n => fine (showNode n) -> forall m, In m (deepNodes n) -> hasBlock (nodeLines m) (fst (showNode n))) ps ->
    fine (showNodes ps) -> forall m, In m (flat_map deepNodes ps) -> hasBlock (nodeLines m) (fst (showNodes ps)).
  Proof.
    intros H F m Hm. unfold showNodes in *. rewrite showAll_lines by exact F. rewrite showAll_fine in F.
    induction H as [|n t Hn _ IH]; [contradiction|]. inversion F as [|? ? F1 F2]; subst. cbn [flat_map] in *.
    apply andThen_fine in F1 as [F1 _]. rewrite andThen_lines by exact F1. apply in_app_or in Hm as [Hm|Hm].
    - apply block_left, block_left. auto.
    - apply block_right. auto.
  Qed.
  Lemma node_block (n : node T) : fine (showNode n) -> forall m, In m (deepNodes n) -> hasBlock (nodeLines m) (fst (showNode n)).
  Proof.
    revert n. apply (below_ind (fun n => fine (showNode n) -> forall m, In m (deepNodes n) -> hasBlock (nodeLines m) (fst (showNode n)))).
    intros h b H F m Hm. rewrite showNode_eq in F |- *. rewrite deepNodes_eq in Hm. apply andThen_fine in F as [F1 F].
    apply andThen_fine in F as [F2 _]. rewrite andThen_lines by exact F1. rewrite andThen_lines by exact F2. destruct Hm as [<-|Hm].
    - apply block_left. destruct (header_block h b F1) as [B ->]. exists [], B. reflexivity.
    - apply block_right, block_left.
      destruct b as [| | | |v|v|ps|ps|p|w [[at_ vs es ps]|]|ps]; cbn [childShown below flat_map] in *; try contradiction.
      + apply andThen_fine in F2 as [_ F2]. rewrite andThen_lines by reflexivity. apply block_right.
        unfold showList in *. apply andThen_fine in F2 as [_ F2]. rewrite andThen_lines by reflexivity. apply block_right.
        cbn [procs_of] in *. now apply nodes_block_of.
      + apply andThen_fine in F2 as [_ F2]. rewrite andThen_lines by reflexivity. apply block_right. now apply nodes_block_of.
  Qed.
  Theorem list_block (l : plist T) : fine (showList l) -> forall m, In m (nodesOf l) -> exists A B, fst (showList l) = A ++ nodeLines m ++ B.
  Proof.
    unfold showList, nodesOf. intros F m Hm. apply andThen_fine in F as [_ F]. rewrite andThen_lines by reflexivity. apply block_right.
    apply nodes_block_of; [|exact F|exact Hm]. apply Forall_forall. intros n _. apply node_block.
  Qed.

  (** * What can be saved can be shown *)
  Lemma row_in k i (vs : list T) x : k <> 0 -> (i < List.length vs / k) -> In x (tableRow k i vs) -> In x (completeRows k vs).
  Proof.
    intros Hk Hi Hx. rewrite completeRows_eq by exact Hk. set (n := (List.length vs / k)) in *. clearbody n.
    unfold tableRow in Hx. destruct (Nat.le_exists_sub (S i) n Hi) as (m & -> & _). replace ((m + S i) * k) with (i * k + (k + m * k)) by ring.
    rewrite <- (firstn_skipn (i * k) (firstn _ vs)). apply in_or_app. right. rewrite skipn_firstn_comm.
    replace (i * k + (k + m * k) - i * k) with (k + m * k) by lia.
    rewrite <- (firstn_skipn k (firstn (k + _) _)). apply in_or_app. left. rewrite firstn_firstn, Nat.min_l by lia. exact Hx.
  Qed.
  Lemma writable_shown c (e : element T) : is_ok (elementWrite c e) -> canShow e.
  Proof.
    destruct e as [d|a|m|p]; cbn [elementWrite canShow]; trivial.
    - intro W. apply arrayWrite_ok in W as (k & C & Nz & _ & I & _). exists k. split; [now apply columns_ok|]. split; [exact Nz|].
      intros Hi i x Ii Ix. apply pyint_fin. apply (I Hi). rewrite <- completeRows_eq by exact Nz. apply (row_in k i); [exact Nz| |exact Ix].
      unfold rowsShown in Ii. destruct (Nat.leb_spec (List.length (a_vals a) / k) 10).
      + apply in_seq in Ii. lia.
      + cbn in Ii. lia.
    - intro W. apply imapWrite_ok in W as [W _]. now right.
  Qed.
  Lemma inside_all (P : element T -> Prop) (n : node T) : elementsInside P n -> Forall unresolved (deepNodes n) ->
    Forall (fun m => Forall P (h_elems (nheader m))) (deepNodes n).
  Proof.
    revert n. apply (below_ind (fun n => elementsInside P n -> Forall unresolved (deepNodes n) ->
      Forall (fun m => Forall P (h_elems (nheader m))) (deepNodes n))).
    intros h b H [He Hb] U. rewrite deepNodes_eq in *. inversion U as [|? ? U1 U2]; subst. constructor; [exact He|].
    destruct b as [| | | |v|v|ps|ps|p|w [l|]|ps]; cbn [below flat_map] in *; try constructor; [exfalso; exact (U1 w l eq_refl)|].
    clear U U1. induction ps as [|p t IH]; [constructor|]. destruct Hb as [Hp Ht]. inversion H as [|? ? H1 H2]; subst. cbn [flat_map] in *.
    apply Forall_app in U2 as [V1 V2]. apply Forall_app. split; [exact (H1 Hp V1)|exact (IH H2 Ht V2)].
  Qed.
  Theorem saved_shown c (l : plist T) : is_ok (listWrite c false l) -> Forall curvesKnown (nodesOf l) -> Forall unresolved (nodesOf l) -> fine (showList l).
  Proof.
    intros W K U. apply list_writes in W. apply list_fine. unfold nodesOf in *.
    assert (E : Forall (fun m => Forall (fun e => is_ok (elementWrite c e)) (h_elems (nheader m))) (flat_map deepNodes (procs_of l))).
    { revert U. induction W as [|n t Hn _ IH]; [constructor|]. cbn [flat_map] in *. intro U. apply Forall_app in U as [U1 U2].
      apply Forall_app in K as [_ K]. apply Forall_app. split; [exact (inside_all _ n Hn U1)|exact (IH K U2)]. }
    rewrite Forall_forall in *. intros [h b] Hn. split; [|exact (K _ Hn)]. specialize (E _ Hn). cbn [nheader] in E.
    eapply Forall_impl; [|exact E]. intro e. apply writable_shown.
  Qed.
  Theorem array_shown (a : array T) k : rowLength (a_dims a) = Some k -> canShow (EArray a) ->
    showArray a = ([LCaption "Array"; LDimensions (a_dims a); LCaption "Values"] ++ tableLines a k, None).
  Proof. intros E C. apply array_fine in C. rewrite <- (array_lines a k E C), <- C. apply surjective_pairing. Qed.
  Theorem contrast_shown (h : header T) (x c p : T) : Forall canShow (h_elems h) ->
    exists before, fst (showNode (Node h (BExposureContrast {| e_exposure := x; e_contrast := c; e_pivot := p |}))) =
      before ++ [LValue "exposure" [x]; LValue "contrast" [x]; LValue "pivot" [p]; LCaption ""].
  Proof.
    intro C. rewrite showNode_eq. apply header_fine with (type := nodeTag (BExposureContrast {| e_exposure := x; e_contrast := c; e_pivot := p |})) in C.
    rewrite andThen_lines by exact C. eexists. reflexivity.
  Qed.
  Theorem contrast_lost (x c p : T) : c <> x ->
    exists n, nbody n = BExposureContrast {| e_exposure := x; e_contrast := c; e_pivot := p |} /\
      snd (showNode n) = None /\ ~ In (LValue "contrast" [c]) (fst (showNode n)).
  Proof.
    intro H. exists (Node {| h_attrs := []; h_vals := []; h_dyn := []; h_elems := [] |} (BExposureContrast {| e_exposure := x; e_contrast := c; e_pivot := p |})).
    split; [reflexivity|]. split; [reflexivity|]. cbn. intros [F|[F|[F|[F|[F|[]]]]]]; try discriminate. injection F as F. congruence.
  Qed.
End Shown.
