(** Proofs about building lists with the API and about data processing does not read. *)
From Coq Require Import List String ZArith Lia Bool.
From Verif Require Import PBase PFacts PStruct PNode PChain PList PDepth SpecDepth SpecMeta.
Import ListNotations.
Local Open Scope string_scope.
Local Open Scope list_scope.

Section Any.
  Context {T : Type} {NM : Num T}.

  (** ** What processing reads *)
  Lemma lastArray_tables (es : list (element T)) : option_map contents (lastArray es) = lastArray (tablesIn es).
  Proof. induction es as [|e es IH]; [reflexivity|]. destruct e; cbn; try exact IH. rewrite <- IH. now destruct (lastArray es). Qed.
  Lemma indexMaps_tables (es : list (element T)) : indexMaps es = indexMaps (tablesIn es).
  Proof. induction es as [|e es IH]; [reflexivity|]. destruct e; cbn; try exact IH. now rewrite IH. Qed.

  Ltac same_array EL :=
    match type of EL with option_map _ ?x = option_map _ ?y =>
      destruct x as [[d1 v1 t1 r1 i1 e1]|], y as [[d2 v2 t2 r2 i2 e2]|]; cbn [option_map] in EL; try discriminate; [|reflexivity];
      unfold contents in EL; cbn [a_dims a_vals a_dt] in EL; injection EL as -> -> ->; reflexivity
    end.

  Lemma leaf_alike c (h h' : header T) b values st :
    match b with BGroup _ | BReference _ (Some _) => False | _ => True end -> sameSettings h h' ->
    nodeProcess c (Node h b) values st = nodeProcess c (Node h' b) values st.
  Proof.
    intros Hb (HA & HV & HT).
    assert (EI := HA "inBitDepth" ltac:(cbn; tauto)). assert (EO := HA "outBitDepth" ltac:(cbn; tauto)).
    assert (ES := HA "style" ltac:(cbn; tauto)). assert (ED := HA "defaultRange" ltac:(cbn; tauto)).
    assert (EP := HA "interpolation" ltac:(cbn; tauto)). assert (EH := HA "halfDomain" ltac:(cbn; tauto)).
    assert (L1 := HV "minInValue" ltac:(cbn; tauto)). assert (L2 := HV "maxInValue" ltac:(cbn; tauto)).
    assert (L3 := HV "minOutValue" ltac:(cbn; tauto)). assert (L4 := HV "maxOutValue" ltac:(cbn; tauto)).
    assert (EL : option_map contents (lastArray (h_elems h)) = option_map contents (lastArray (h_elems h'))) by (rewrite !lastArray_tables; now rewrite HT).
    assert (EM : indexMaps (h_elems h) = indexMaps (h_elems h')) by (rewrite indexMaps_tables, HT; symmetry; apply indexMaps_tables).
    destruct b as [| | | |v|v|ps|ps|p|w [pl|]|ps]; try contradiction; cbn [nodeProcess].
    - unfold rangeProcess, rangeLimit, dgetE. now rewrite EI, EO, ES, ED, L1, L2, L3, L4.
    - unfold matrixProcess, dgetE. rewrite EI, EO. same_array EL.
    - unfold lut1dProcess, flagSet, dgetE. rewrite EI, EO, EM, EP, EH. same_array EL.
    - unfold lut3dProcess, dgetE. rewrite EI, EO, EM, EP. same_array EL.
    - unfold cdlProcess, dgetE. now rewrite EI, EO, ES.
    - unfold cdlProcess, dgetE. now rewrite EI, EO, ES.
    - unfold gammaProcess, dgetE. now rewrite EI, EO, ES.
    - unfold logProcess, dgetE. now rewrite EI, EO, ES.
    - unfold ecProcess, dgetE. now rewrite EI, EO, ES.
    - reflexivity.
  Qed.

  Lemma alike_settings (n n' : node T) : alike n n' -> sameSettings (nheader n) (nheader n').
  Proof. destruct 1; assumption. Qed.
  Lemma alike_attr (n n' : node T) k : alike n n' -> In k colourAttributes -> getAttribute n k = getAttribute n' k.
  Proof. intros H K. apply alike_settings in H. unfold getAttribute. now rewrite (proj1 H k K). Qed.

  Lemma chain_alike c hb : forall (ps ps' : list (node T)), Forall2 alike ps ps' ->
    Forall (fun n => forall n' values st, alike n n' -> nodeProcess c n values st = nodeProcess c n' values st) ps ->
    forall p p' st s, (match p, p' with Some a, Some b => alike a b | None, None => True | _, _ => False end) ->
    chain hb (nodeProcess c) p ps st s = chain hb (nodeProcess c) p' ps' st s.
  Proof.
    induction 1 as [|n n' ps ps' Hn HF IH]; intros HP p p' st s Hp; [reflexivity|].
    inversion HP as [|? ? P1 P2]; subst. cbn [chain].
    assert (E : notBypassed n = notBypassed n') by (unfold notBypassed; rewrite (alike_attr n n' "bypass" Hn); [reflexivity|cbn; tauto]).
    rewrite E.
    match goal with |- bind ?x _ = bind ?y _ => assert (Step : x = y) end; [|rewrite Step; apply bind_ext].
    - destruct (notBypassed n' || negb hb).
      + rewrite (P1 n' (po_out s) st Hn). reflexivity.
      + unfold bypassStep. destruct p as [p|], p' as [p'|]; try contradiction; [|reflexivity].
        destruct HF as [|q q' r r' Hq _]; [reflexivity|]. cbn [hd_error].
        unfold getOutBitDepth, getInBitDepth. rewrite (alike_attr p p' "outBitDepth" Hp), (alike_attr q q' "inBitDepth" Hq) by (cbn; tauto). reflexivity.
    - intros s' _. apply IH; assumption.
  Qed.

  Theorem node_alike c (n : node T) : forall n' values st, alike n n' -> nodeProcess c n values st = nodeProcess c n' values st.
  Proof.
    induction n as [h b HG HR] using node_deep_ind. intros n' values st H.
    inversion H as [? h' ? S|? h' ps ps' F S|? h' w w' a v e ps a' v' e' ps' F S]; subst; clear H.
    - destruct b as [| | | |v|v|ps|ps|p|w [[a v e ps]|]|ps]; try (apply leaf_alike; [exact Logic.I|exact S]); reflexivity.
    - cbn [nodeProcess]. apply chain_alike; [exact F|now apply HG|exact Logic.I].
    - cbn [nodeProcess]. rewrite !bind_ret. apply chain_alike; [exact F|now apply (HR w a v e)|exact Logic.I].
  Qed.

  Theorem list_alike c (l l' : plist T) values st : alikeLists l l' -> listProcess c l values st = listProcess c l' values st.
  Proof.
    intro H. unfold listProcess. apply chain_alike; [exact H| |exact Logic.I].
    apply Forall_forall. intros n _ n' v s A. now apply node_alike.
  Qed.

  Lemma settings_refl (h : header T) : sameSettings h h.
  Proof. repeat split. Qed.
  Lemma alike_refl (n : node T) : alike n n.
  Proof. destruct n. constructor. apply settings_refl. Qed.
  Lemma alike_list_refl (ps : list (node T)) : Forall2 alike ps ps.
  Proof. induction ps; constructor; [apply alike_refl|assumption]. Qed.

  (** ** Building *)
  Lemma last_skips c (l : plist T) : (forall p, lastNode (procs_of l) = Some p -> ~ skipped c p) ->
    match rev (procs_of l) with n :: _ => skips (autodesk_on c) n = false | [] => True end.
  Proof. intro H. unfold lastNode in H. destruct (rev (procs_of l)) as [|p r]; [exact Logic.I|]. apply skips_false. now apply H. Qed.

  Theorem add_process c (l : plist T) n values st :
    (forall p, lastNode (procs_of l) = Some p -> ~ skipped c p) ->
    (~ skipped c n -> outcome (listProcess c (addProcess l n) values st) =
       let* o := outcome (listProcess c l values st) in outcome (nodeProcess c n o st)) /\
    (skipped c n -> outcome (listProcess c (addProcess l n) values st) = outcome (listProcess c l values st)).
  Proof.
    intro HL. apply last_skips in HL. rewrite !list_out. destruct l as [a v e ps]. cbn [addProcess procs_of] in *.
    rewrite chainOut_app by (now right). cbn [chainOut]. split; intro H.
    - rewrite (skips_false c n H). apply bind_ext. intros o _. rewrite outcome_bind. now rewrite bind_ret.
    - apply bypass_skips in H. rewrite H. cbn [hd_error].
      transitivity (bind (chainOut (autodesk_on c) (nodeProcess c) None ps st (map nf32 values)) Ok); [|apply bind_ret].
      apply bind_ext. intros o _. unfold bypassOut. now destruct (rev ps).
  Qed.

  Lemma runs_skip hb (p : node T) : ~ hasBypass p -> skips hb p = false.
  Proof. intro H. now apply runs_skips. Qed.
  Theorem group_add c h ps n (values : list T) st :
    (forall p, lastNode ps = Some p -> ~ hasBypass p) -> ~ hasBypass n ->
    outcome (nodeProcess c (groupAddProcess (Node h (BGroup ps)) n) values st) =
    let* o := outcome (nodeProcess c (Node h (BGroup ps)) values st) in outcome (nodeProcess c n o st).
  Proof.
    intros HL Hn. cbn [groupAddProcess]. rewrite !group_outcome.
    assert (K : match rev ps with p :: _ => skips true p = false | [] => True end).
    { unfold lastNode in HL. destruct (rev ps) as [|p r]; [exact Logic.I|]. apply runs_skip. now apply HL. }
    rewrite chainOut_app by (now right). apply bind_ext. intros o _. cbn [chainOut]. rewrite (runs_skip true n Hn), outcome_bind. now rewrite bind_ret.
  Qed.
  Theorem group_find h (ps : list (node T)) n name :
    groupGetProcess (Node h (BGroup ps)) name = Some n <->
    exists before after, ps = before ++ n :: after /\ getAttribute n "name" = name /\ Forall (fun p => getAttribute p "name" <> name) before.
  Proof. exact (find_first (PList [] [] [] ps) name n). Qed.

  Theorem built (l : plist T) ns : let l' := fold_left addProcess ns l in
    listIter l' = listIter l ++ ns /\ listLen l' = (listLen l + List.length ns)%nat.
  Proof.
    revert l. induction ns as [|n ns IH]; intro l; cbn [fold_left].
    - cbn. rewrite app_nil_r. split; [reflexivity|]. unfold listLen. now rewrite Nat.add_0_r.
    - destruct (IH (addProcess l n)) as [E1 E2]. cbv zeta in *. rewrite E1, E2. destruct l as [a v e ps]. unfold listIter, listLen. cbn [addProcess procs_of].
      rewrite <- app_assoc, app_length. cbn [app List.length]. split; [reflexivity|lia].
  Qed.
  Theorem items (l : plist T) k :
    (forall n, listItem l k = Ok n <->
       ((0 <= k)%Z /\ nth_error (listIter l) (Z.to_nat k) = Some n) \/
       ((k < 0)%Z /\ (0 <= k + Z.of_nat (listLen l))%Z /\ nth_error (listIter l) (Z.to_nat (k + Z.of_nat (listLen l))) = Some n)) /\
    ((k < - Z.of_nat (listLen l) \/ Z.of_nat (listLen l) <= k)%Z -> listItem l k = Err IndexError).
  Proof.
    unfold listItem, listIter, listLen, pyget. set (ps := procs_of l). cbv zeta.
    destruct (Z.ltb_spec k 0).
    - destruct (Z.ltb_spec (k + Z.of_nat (List.length ps)) 0).
      + split; [|reflexivity]. intro n. split; [discriminate|]. intros [?|?]; lia.
      + split; [|lia]. intro n. destruct (nth_error ps _) as [x|].
        * split; [intros [= <-]; right; auto|]. intros [?|(_ & _ & [= ->])]; [lia|reflexivity].
        * split; [discriminate|]. intros [?|(_ & _ & E)]; [lia|discriminate].
    - destruct (Z.ltb_spec k 0); [lia|]. split.
      + intro n. destruct (nth_error ps _) as [x|].
        * split; [intros [= <-]; left; auto|]. intros [(_ & [= ->])|?]; [reflexivity|lia].
        * split; [discriminate|]. intros [(_ & E)|?]; [discriminate|lia].
      + intro K. destruct (nth_error ps (Z.to_nat k)) eqn:E; [|reflexivity].
        assert (nth_error ps (Z.to_nat k) <> None) by congruence. apply nth_error_Some in H1. lia.
  Qed.

  (** ** Accessors *)
  Theorem list_attributes (l : plist T) k v k' :
    listGetAttribute (listSetAttribute l k v) k' = if String.eqb k' k then Some v else listGetAttribute l k'.
  Proof. destruct l as [a vs e ps]. cbn. destruct (String.eqb_spec k' k); [subst; apply dget_dset_same|now apply dget_dset_other]. Qed.
  Theorem list_values (l : plist T) k v k' :
    listGetValueElement (listAddValueElement l k v) k' = if String.eqb k' k then Some v else listGetValueElement l k'.
  Proof. destruct l as [a vs e ps]. cbn. destruct (String.eqb_spec k' k); [subst; apply dget_dset_same|now apply dget_dset_other]. Qed.
  Theorem node_attributes (n : node T) k v k' :
    getAttribute (setAttribute n k v) k' = if String.eqb k' k then v else getAttribute n k'.
  Proof. destruct n as [h b]. unfold getAttribute. cbn. destruct (String.eqb_spec k' k); [subst; now rewrite dget_dset_same|now rewrite dget_dset_other]. Qed.
  Theorem node_values (n : node T) k v k' :
    getValueElement (setValue n k v) k' = if String.eqb k' k then Some v else getValueElement n k'.
  Proof. destruct n as [h b]. unfold getValueElement. cbn. destruct (String.eqb_spec k' k); [subst; apply dget_dset_same|now apply dget_dset_other]. Qed.
  Theorem node_params (n : node T) p q : getDynamicParam (setDynamicParam n p) q = (String.eqb q p || getDynamicParam n q)%bool.
  Proof. destruct n as [h b]. unfold getDynamicParam. cbn. rewrite existsb_app. cbn. rewrite orb_false_r. apply orb_comm. Qed.

  (** ** Setters of metadata *)
  Lemma alike_attribute (n : node T) k v : ~ In k colourAttributes -> alike (setAttribute n k v) n.
  Proof.
    intro K. destruct n as [h b]. constructor. split; [|split]; try reflexivity. intros q Q. cbn [hSetAttr h_attrs]. apply dget_dset_other.
    intro E. now rewrite E in Q.
  Qed.
  Lemma alike_value (n : node T) k v : ~ In k limitNames -> alike (setValue n k v) n.
  Proof.
    intro K. destruct n as [h b]. constructor. split; [|split]; try reflexivity. intros q Q. cbn [hSetVal h_vals]. apply dget_dset_other.
    intro E. now rewrite E in Q.
  Qed.
  Lemma alike_param (n : node T) p : alike (setDynamicParam n p) n.
  Proof. destruct n as [h b]. constructor. repeat split. Qed.
  Lemma tables_app (es es' : list (element T)) : tablesIn (es ++ es') = tablesIn es ++ tablesIn es'.
  Proof. induction es as [|e es IH]; [reflexivity|]. destruct e; cbn; now rewrite IH. Qed.
  Lemma alike_element (n : node T) x : (forall a, x <> EArray a) -> (forall m, x <> EIndexMap m) -> alike (addElement n x) n.
  Proof.
    intros A M. destruct n as [h b]. constructor. split; [|split]; try reflexivity. cbn [hAddElem h_elems]. rewrite tables_app.
    destruct x as [t|a|m|y]; cbn; [apply app_nil_r|now destruct (A a)|now destruct (M m)|apply app_nil_r].
  Qed.
  Lemma alike_inside (front : list (node T)) n n' rest : alike n n' -> Forall2 alike (front ++ n :: rest) (front ++ n' :: rest).
  Proof. intro H. apply Forall2_app; [apply alike_list_refl|]. constructor; [exact H|apply alike_list_refl]. Qed.
  Theorem metadata_setters (l : plist T) front (n : node T) rest a v e : procs_of l = front ++ n :: rest ->
    let with_ n' := PList a v e (front ++ n' :: rest) in
    (forall k x, ~ In k colourAttributes -> alikeLists (with_ (setAttribute n k x)) l) /\
    (forall k x, ~ In k limitNames -> alikeLists (with_ (setValue n k x)) l) /\
    (forall p, alikeLists (with_ (setDynamicParam n p)) l) /\
    (forall t, alikeLists (with_ (addElement n (EDesc t))) l) /\
    (forall k x, alikeLists (listSetAttribute l k x) l) /\
    (forall x, alikeLists (listAddElement l x) l) /\
    (forall k x, alikeLists (listAddValueElement l k x) l).
  Proof.
    intros E with_. unfold with_, alikeLists. cbn [procs_of].
    assert (S : forall q, procs_of q = procs_of l -> Forall2 alike (procs_of q) (procs_of l)) by (intros q ->; apply alike_list_refl).
    split; [intros; rewrite E; now apply alike_inside, alike_attribute|].
    split; [intros; rewrite E; now apply alike_inside, alike_value|].
    split; [intros; rewrite E; apply alike_inside, alike_param|].
    split; [intros; rewrite E; apply alike_inside, alike_element; discriminate|].
    split; [|split]; intros; apply S; destruct l; [reflexivity|destruct x; reflexivity|reflexivity].
  Qed.
  Theorem elements_added xs : forall a vs es (ps : list (node T)),
    fold_left listAddElement xs (PList a vs es ps) = PList a vs (es ++ flat_map (fun x => match x with Some e => [e] | None => [] end) xs) ps.
  Proof.
    induction xs as [|[x|] t IH]; intros; cbn [fold_left flat_map listAddElement app]; [now rewrite app_nil_r| |apply IH].
    rewrite IH, <- app_assoc. reflexivity.
  Qed.
  Theorem list_names (l : plist T) name space id inv ver :
    let l' := setCompCLFversion (setInverseOf (setID (setNamespace (setName l name) space) id) inv) ver in
    getName l' = Some name /\ getNamespace l' = Some space /\ getID l' = Some id /\ getInverseOf l' = Some inv /\
    getCompCLFversion l' = Some ver /\ listIter l' = listIter l.
  Proof.
    cbv zeta. unfold getName, getNamespace, getID, getInverseOf, getCompCLFversion, setName, setNamespace, setID, setInverseOf, setCompCLFversion.
    rewrite !list_attributes. cbn. repeat (split; [reflexivity|]). now destruct l.
  Qed.
End Any.
