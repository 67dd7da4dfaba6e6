(** What writing can hold, exact lists, and self-contained writing. *)
From Coq Require Import List Arith Lia ZArith String Ascii Bool.
From Verif Require Import PBase PChain PList PXmlArray PXmlRead PXmlWrite SpecWrite Spec.
Import ListNotations.
Local Open Scope list_scope.

Section Inline.
  Context {T : Type} {NM : Num T} {X : NumText T}.

  (* ---------------------------------------------------------------- *)
  (** * When writing succeeds *)

  Lemma headerWrite_ok c tag (h : header T) more :
    is_ok (headerWrite c tag h more) <-> Forall (fun e => is_ok (elementWrite c e)) (h_elems h).
  Proof.
    unfold headerWrite. rewrite Forall_forall, <- mapM_ok_iff.
    destruct (mapM (elementWrite c) (h_elems h)) as [es|e]; cbn [bind]; split; intros [y E]; try discriminate; eexists; reflexivity.
  Qed.
  Lemma bind_is_ok {A B} (r : res A) (f : A -> B) : is_ok (let* x := r in Ok (f x)) <-> is_ok r.
  Proof. destruct r; cbn [bind]; split; intros [y E]; try discriminate; eexists; reflexivity. Qed.

  Lemma nodesWrite_ok c f (ps : list (node T)) : is_ok (nodesWrite c f ps) <-> Forall (fun p => is_ok (nodeWrite c f p)) ps.
  Proof.
    induction ps as [|p t IH]; [split; [constructor|eexists; reflexivity]|]. rewrite nodesWrite_cons, Forall_cons_iff, <- IH.
    destruct (nodeWrite c f p) as [e|]; cbn [bind]; [|split; [intros [y E]; discriminate|intros [[y E] _]; discriminate]].
    rewrite bind_is_ok. split; [|tauto]. intro H. split; [eexists; reflexivity|exact H].
  Qed.
  Lemma node_writes c (n : node T) : is_ok (nodeWrite c (Some false) n) <-> elementsInside (fun e => is_ok (elementWrite c e)) n.
  Proof.
    induction n as [h b HG _] using node_deep_ind. cbn [elementsInside].
    assert (D : plainBody b \/ (exists w pl, b = BReference w pl) \/ exists ps, b = BGroup ps) by (destruct b; cbn; eauto).
    destruct D as [P|[(w & pl & ->)|(ps & ->)]].
    - rewrite nodeWrite_plain by exact P. rewrite bind_is_ok, headerWrite_ok. destruct b; tauto.
    - rewrite nodeWrite_kept, bind_is_ok, headerWrite_ok. tauto.
    - rewrite nodeWrite_group.
      assert (F : (fix all (ps : list (node T)) : Prop := match ps with [] => True | p :: t => elementsInside (fun e => is_ok (elementWrite c e)) p /\ all t end) ps
                  <-> is_ok (nodesWrite c (Some false) ps)).
      { rewrite nodesWrite_ok. specialize (HG ps eq_refl). clear - HG. induction HG as [|p t Hp _ IH]; [split; auto|].
        rewrite Forall_cons_iff, Hp, <- IH. reflexivity. }
      rewrite F, <- headerWrite_ok with (tag := "Group"%string) (more := []).
      destruct (headerWrite c "Group" h []) as [[tag at_ x cs]|]; cbn [bind];
        [|split; [intros [y E]; discriminate|intros [[y E] _]; discriminate]].
      destruct (nodesWrite c (Some false) ps) as [es|]; cbn [bind].
      + split; [|intros _; eexists; reflexivity]. intros _. split; eexists; reflexivity.
      + split; [intros [y E]; discriminate|intros [_ [y E]]; discriminate].
  Qed.
  Lemma list_writes c (l : plist T) : is_ok (listWrite c false l) <-> Forall (elementsInside (fun e => is_ok (elementWrite c e))) (procs_of l).
  Proof.
    destruct l as [attrs vals elems procs]. cbn [listWrite procs_of]. rewrite bind_is_ok, nodesWrite_ok. clear.
    split; intro H; (eapply Forall_impl; [|exact H]); intros n Hn; now apply node_writes.
  Qed.

  (* ---------------------------------------------------------------- *)
  (** * Exact lists process alike *)

  Lemma lastArray_kept i (es : list (element T)) : lastArray (map (keptElement i) es) = option_map (keptArr i) (lastArray es).
  Proof.
    induction es as [|e es IH]; [reflexivity|]. destruct e; cbn [map keptElement lastArray]; rewrite ?IH; try reflexivity.
    destruct (lastArray es); reflexivity.
  Qed.
  Lemma lastArray_in (es : list (element T)) a : lastArray es = Some a -> In (EArray a) es.
  Proof.
    induction es as [|e es IH]; [discriminate|]. destruct e; cbn [lastArray]; intro E; try (right; now apply IH).
    destruct (lastArray es); [injection E as <-; right; now apply IH|injection E as <-; now left].
  Qed.
  Lemma indexMaps_kept i (es : list (element T)) : Forall exactElement es -> indexMaps (map (keptElement i) es) = indexMaps es.
  Proof.
    induction 1 as [|e es He _ IH]; [reflexivity|]. destruct e; cbn [map keptElement indexMaps]; rewrite ?IH; try reflexivity.
    cbn [exactElement] in He. now rewrite He.
  Qed.
  Lemma arr_parts i (a : array T) : exactElement (EArray a) -> 
    keptArr i a = {| a_dims := a_dims a; a_vals := a_vals a; a_dt := arrayKind (a_raw a) (keptEncoding a); a_raw := a_raw a;
                     a_int := i; a_enc := keptEncoding a |}.
  Proof. unfold keptArr. cbn [exactElement]. now intros ->. Qed.

  Lemma chain_map (f : node T -> node T) hb (run : node T -> list T -> nat -> res (pout T)) (ps : list (node T)) st :
    (forall (n : node T) k, getAttribute (f n) k = getAttribute n k) ->
    Forall (fun n => forall v : list T, run (f n) v st = run n v st) ps ->
    forall prev s, chain hb run (option_map f prev) (map f ps) st s = chain hb run prev ps st s.
  Proof.
    intros Ha H. induction H as [|n rest Hn _ IH]; intros prev s; [reflexivity|]. cbn [map chain].
    unfold notBypassed. rewrite Ha, Hn.
    assert (B : bypassStep (option_map f prev) (hd_error (map f rest)) s = bypassStep prev (hd_error rest) s).
    { unfold bypassStep, getOutBitDepth, getInBitDepth. destruct prev as [p|], rest as [|q rest]; cbn [option_map map hd_error]; try reflexivity.
      now rewrite !Ha. }
    rewrite B. match goal with |- bind ?r _ = bind ?r _ => destruct r as [s'|]; [|reflexivity] end. cbn [bind]. exact (IH (Some n) s').
  Qed.

  Lemma kept_attribute (n : node T) k : getAttribute (keptNode n) k = getAttribute n k.
  Proof. destruct n as [h b]. reflexivity. Qed.

  Lemma kept_processes c (n : node T) : exactNode n -> forall values st, nodeProcess c (keptNode n) values st = nodeProcess c n values st.
  Proof.
    induction n as [h b HG _] using node_deep_ind. intros E values st. cbn [exactNode] in E. destruct E as (Ev & Ee & Ek & Eb).
    rewrite keptNode_eq.
    assert (Hv : h_vals (keptHeader h) = h_vals h).
    { cbn [keptHeader h_vals]. clear - Ev. induction Ev as [|[k v] t Hv _ IH]; [reflexivity|]. cbn [map fst snd] in *. now rewrite Hv, IH. }
    destruct b as [| | | |v|v|ps|ps|p|w pl|ps]; cbn [keptBody nodeProcess].
    - unfold rangeProcess, rangeLimit. rewrite ?Hv. reflexivity.
    - unfold matrixProcess. cbn [keptHeader h_attrs h_elems]. rewrite lastArray_kept.
      destruct (lastArray (h_elems h)) as [a|] eqn:La; [|reflexivity]. apply lastArray_in in La. cbn [option_map].
      pose proof (proj1 (Forall_forall _ _) (Ek (or_introl eq_refl)) _ La) as Kd. cbn beta iota in Kd.
      rewrite arr_parts by exact (proj1 (Forall_forall _ _) Ee _ La). rewrite <- Kd. destruct a. reflexivity.
    - unfold lut1dProcess. replace (flagSet (keptHeader h) "halfDomain") with (flagSet h "halfDomain") by reflexivity.
      cbn [keptHeader h_attrs h_elems]. rewrite lastArray_kept, indexMaps_kept by exact Ee.
      destruct (lastArray (h_elems h)) as [a|] eqn:La; [|reflexivity]. apply lastArray_in in La. cbn [option_map].
      rewrite arr_parts by exact (proj1 (Forall_forall _ _) Ee _ La).
      destruct (flagSet h "halfDomain") eqn:Fh.
      + pose proof (proj1 (Forall_forall _ _) (Ek (or_intror (conj eq_refl Fh))) _ La) as Kd. cbn beta iota in Kd. rewrite <- Kd. destruct a. reflexivity.
      + destruct a. reflexivity.
    - unfold lut3dProcess. cbn [keptHeader h_attrs h_elems]. rewrite lastArray_kept, indexMaps_kept by exact Ee.
      destruct (lastArray (h_elems h)) as [a|] eqn:La; [|reflexivity]. apply lastArray_in in La. cbn [option_map].
      rewrite arr_parts by exact (proj1 (Forall_forall _ _) Ee _ La). destruct a. reflexivity.
    - rewrite Eb. reflexivity.
    - rewrite Eb. reflexivity.
    - rewrite Eb. reflexivity.
    - rewrite Eb. reflexivity.
    - rewrite Eb. reflexivity.
    - reflexivity.
    - apply (chain_map (@keptNode T _ _) true _ ps st kept_attribute) with (prev := None).
      specialize (HG ps eq_refl). clear - HG Eb. revert Eb. induction HG as [|p t Hp _ IH]; intro Eb; constructor; [|now apply IH].
      intro v. now apply Hp.
  Qed.
  Lemma kept_list_processes c (l : plist T) values st : Forall exactNode (procs_of l) ->
    listProcess c (keptList l) values st = listProcess c l values st.
  Proof.
    destruct l as [attrs vals elems procs]. intro H. unfold listProcess. cbn [keptList procs_of].
    apply (chain_map (@keptNode T _ _) _ _ procs st kept_attribute) with (prev := None).
    eapply Forall_impl; [|exact H]. intros n Hn v. now apply kept_processes.
  Qed.

  (* ---------------------------------------------------------------- *)
  (** * Self-contained writing *)

  Lemma flag_free c f f' (n : node T) : (forall h w pl, n <> Node h (BReference w pl)) -> nodeWrite c f n = nodeWrite c f' n.
  Proof. destruct n as [h []]; intro H; try reflexivity. destruct (H h writeReferenced pl eq_refl). Qed.
  Lemma nodeWrite_ref c (h : header T) w a v e ps :
    nodeWrite c (Some true) (Node h (BReference w (Some (PList a v e ps)))) = nodesWrite c None ps.
  Proof. reflexivity. Qed.
  Lemma nodes_unflagged c (ps : list (node T)) :
    Forall (fun p => forall h' w' pl', p = Node h' (BReference w' pl') -> w' = false) ps ->
    nodesWrite c None ps = nodesWrite c (Some false) ps.
  Proof.
    induction 1 as [|p t Hp _ IH]; [reflexivity|]. rewrite !nodesWrite_cons, IH. f_equal.
    destruct p as [h []]; try reflexivity. rewrite (Hp h writeReferenced pl eq_refl). reflexivity.
  Qed.

  Lemma self_contained c (l : plist T) : Forall inlinable (procs_of l) -> listWrite c true l = listWrite c false (inlineList l).
  Proof.
    destruct l as [attrs vals elems procs]. cbn [procs_of inlineList listWrite]. intro H. f_equal.
    induction H as [|n t Hn _ IH]; [reflexivity|]. cbn [flat_map]. rewrite nodesWrite_cons, nodesWrite_app, IH. f_equal.
    destruct n as [h b].
    assert (D : (exists w pl, b = BReference w pl) \/ forall h' w pl, Node h b <> Node h' (BReference w pl)).
    { destruct b; [..|left; eauto|]; right; discriminate. }
    destruct D as [(w & pl & ->)|D].
    - destruct (Hn h w pl eq_refl) as ([a v e ps] & -> & Hw). rewrite nodeWrite_ref. cbn [inlined procs_of] in *.
      now apply nodes_unflagged.
    - replace (inlined (Node h b)) with [Node h b].
      + rewrite nodesWrite_cons, nodesWrite_nil, (flag_free c (Some true) (Some false)) by exact D.
        destruct (nodeWrite c (Some false) (Node h b)); cbn [bind]; [now rewrite app_nil_r|reflexivity].
      + destruct b as [| | | |v|v|ps|ps|p|w [pl|]|ps]; try reflexivity; destruct (D h w (Some pl) eq_refl).
  Qed.

  Lemma unresolved c attrs vals elems A (h : header T) w B :
    (exists e, listWrite c true (PList attrs vals elems (A ++ Node h (BReference w None) :: B)) = Err e) /\
    (is_ok (nodesWrite c (Some true) A) ->
     listWrite c true (PList attrs vals elems (A ++ Node h (BReference w None) :: B)) = Err AttributeError).
  Proof.
    cbn [listWrite]. rewrite nodesWrite_app, nodesWrite_cons. destruct (nodesWrite c (Some true) A) as [es|e]; cbn [bind nodeWrite].
    - split; [eexists; reflexivity|reflexivity].
    - split; [eexists; reflexivity|intros [y E]; discriminate].
  Qed.

  (** References in a Group stay. *)
  Lemma unresolved_fails c attrs vals elems A (h : header T) w B :
    let written := listWrite c true (PList attrs vals elems (A ++ Node h (BReference w None) :: B)) in
    (exists e, written = Err e) /\ (is_ok (listWrite c true (PList attrs vals elems A)) -> written = Err AttributeError).
  Proof.
    cbv zeta. destruct (unresolved c attrs vals elems A h w B) as [U1 U2]. split; [exact U1|]. intro H. apply U2.
    cbn [listWrite] in H. now rewrite bind_is_ok in H.
  Qed.

  Lemma header_shape c tag (h : header T) more e : headerWrite c tag h more = Ok e ->
    x_tag e = tag /\ x_attrib e = map (fun '(k, v) => (k, avalText v)) (h_attrs h).
  Proof. unfold headerWrite. destruct (mapM (elementWrite c) (h_elems h)); [|discriminate]. intro E. apply Ok_eq in E. now subst. Qed.
  Lemma grouped_reference c f (h : header T) A (hr : header T) w pl B es :
    nodeWrite c f (Node h (BGroup (A ++ Node hr (BReference w pl) :: B))) = Ok es ->
    exists g r, es = [g] /\ In r (x_children g) /\ x_tag r = "Reference"%string /\
      x_attrib r = map (fun kv => (fst kv, avalText (snd kv))) (h_attrs hr).
  Proof.
    rewrite nodeWrite_group, nodesWrite_app, nodesWrite_cons, nodeWrite_kept.
    destruct (headerWrite c "Group" h []) as [[tg ga gx gc]|]; [|discriminate]. cbn [bind].
    destruct (nodesWrite c (Some false) A) as [ea|]; [|discriminate]. cbn [bind].
    destruct (headerWrite c "Reference" hr []) as [r|] eqn:R; [|discriminate]. cbn [bind].
    destruct (nodesWrite c (Some false) B) as [eb|]; [|discriminate]. cbn [bind].
    intro E. apply Ok_eq in E. subst es. apply header_shape in R as [Rt Ra].
    eexists. exists r. split; [reflexivity|]. split; [|split; [exact Rt|rewrite Ra; apply map_ext; now intros [k v]]].
    cbn [x_children]. apply in_or_app. right. apply in_or_app. right. now left.
  Qed.

  (** The inlined list processes the same. *)
  Section Process.
    Context {L : F32Laws T}.

    Definition quiet (c : Z) (n : node T) : Prop := autodesk_on c = false \/ (~ hasBypass n /\ Forall (fun p => ~ hasBypass p) (inlined n)).

    Lemma list_round c (l : plist T) values st : outcome (listProcess c l (map nf32 values) st) = outcome (listProcess c l values st).
    Proof. rewrite !list_outcome. f_equal. rewrite map_map. apply map_ext. intro. apply f32_idem. Qed.

    Lemma outcome_two c a v e (A B : list (node T)) values st :
      (autodesk_on c = false \/ (runs (lastNode A) /\ runs (firstNode B))) ->
      outcome (listProcess c (PList a v e (A ++ B)) values st) =
      (let* o := outcome (listProcess c (PList a v e A) values st) in outcome (listProcess c (PList a v e B) o st)).
    Proof. intro H. rewrite list_app by exact H. destruct (listProcess c (PList a v e A) values st); reflexivity. Qed.

    Lemma single_reference c a v e (h : header T) w l values st :
      (autodesk_on c = false \/ ~ hasBypass (Node h (BReference w (Some l)))) ->
      outcome (listProcess c (PList a v e [Node h (BReference w (Some l))]) values st) =
      outcome (listProcess c (PList a v e (procs_of l)) values st).
    Proof.
      intro H. rewrite list_outcome. cbn [procs_of chainOut].
      replace (skips (autodesk_on c) (Node h (BReference w (Some l)))) with false.
      - cbn [procs_of]. rewrite <- (list_round c (PList a v e (procs_of l))).
        replace (nodeProcess c (Node h (BReference w (Some l))) (map nf32 values) st) with (listProcess c l (map nf32 values) st)
          by (symmetry; apply reference_resolved).
        replace (listProcess c (PList a v e (procs_of l)) (map nf32 values) st) with (listProcess c l (map nf32 values) st) by (destruct l; reflexivity).
        destruct (listProcess c l (map nf32 values) st); reflexivity.
      - symmetry. unfold skips. destruct H as [->|H]; [now rewrite orb_true_r|].
        replace (notBypassed (Node h (BReference w (Some l)))) with true; [reflexivity|]. symmetry. unfold notBypassed, getAttribute.
        destruct (dget (h_attrs (nheader (Node h (BReference w (Some l))))) "bypass") as [[]|] eqn:D; try reflexivity;
          (exfalso; apply H; eexists; split; [exact D|discriminate]).
    Qed.

    Lemma inline_processes c (l : plist T) values st : Forall (quiet c) (procs_of l) ->
      outcome (listProcess c (inlineList l) values st) = outcome (listProcess c l values st).
    Proof.
      destruct l as [a v e procs]. cbn [procs_of inlineList]. intro H. revert values.
      assert (Q : autodesk_on c = false \/ (Forall (fun p => ~ hasBypass p) procs /\ Forall (fun p => ~ hasBypass p) (flat_map inlined procs))).
      { destruct (autodesk_on c) eqn:Ac; [right|now left]. clear - H Ac. induction H as [|n t [Hn|[Hn Hi]] _ [IH1 IH2]]; [split; constructor|congruence|].
        split; [now constructor|]. cbn [flat_map]. apply Forall_app. auto. }
      clear H. revert Q. induction procs as [|n t IH]; intros Q values; [reflexivity|]. cbn [flat_map].
      assert (Q' : autodesk_on c = false \/ (Forall (fun p => ~ hasBypass p) t /\ Forall (fun p => ~ hasBypass p) (flat_map inlined t))).
      { destruct Q as [Q|[Q1 Q2]]; [now left|right]. cbn [flat_map] in Q2. apply Forall_app in Q2. split; [exact (Forall_inv_tail Q1)|tauto]. }
      assert (Rf : forall ps, Forall (fun p => ~ hasBypass p) ps -> runs (T := T) (firstNode ps)).
      { intros [|p ps] F; [exact Logic.I|exact (Forall_inv F)]. }
      assert (Rl : forall ps, Forall (fun p => ~ hasBypass p) ps -> runs (T := T) (lastNode ps)).
      { intros ps F. unfold lastNode. apply Rf. apply Forall_rev. exact F. }
      rewrite outcome_two.
      2:{ destruct Q as [Q|[Q1 Q2]]; [now left|right]. cbn [flat_map] in Q2. apply Forall_app in Q2 as [Q2 Q3]. split; [now apply Rl|now apply Rf]. }
      change (n :: t) with ([n] ++ t). rewrite outcome_two.
      2:{ destruct Q as [Q|[Q1 Q2]]; [now left|right]. split; [apply Rl; constructor; [exact (Forall_inv Q1)|constructor]|apply Rf; exact (Forall_inv_tail Q1)]. }
      assert (E1 : outcome (listProcess c (PList a v e (inlined n)) values st) = outcome (listProcess c (PList a v e [n]) values st)).
      { destruct n as [h b]. destruct b as [| | | |vv|vv|ps|ps|p|w [l'|]|ps]; try reflexivity. symmetry. apply single_reference.
        destruct Q as [Q|[Q1 _]]; [now left|right]. exact (Forall_inv Q1). }
      rewrite E1. destruct (outcome (listProcess c (PList a v e [n]) values st)) as [o|]; [|reflexivity]. cbn [bind]. now apply IH.
    Qed.

    Lemma inline_same c (l : plist T) values st :
      autodesk_on c = false \/ Forall (fun n => ~ hasBypass n) (procs_of l ++ procs_of (inlineList l)) ->
      outcome (listProcess c (inlineList l) values st) = outcome (listProcess c l values st).
    Proof.
      intro H. apply inline_processes. destruct H as [H|H]; [apply Forall_forall; intros; now left|]. apply Forall_app in H as [H1 H2].
      destruct l as [a v e procs]. cbn [procs_of inlineList] in *. apply Forall_forall. intros n Hn. right.
      split; [now apply (proj1 (Forall_forall _ _) H1)|]. apply Forall_forall. intros p Hp. apply (proj1 (Forall_forall _ _) H2).
      apply in_flat_map. now exists n.
    Qed.
  End Process.
End Inline.
