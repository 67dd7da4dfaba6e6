(** The parameters printInfo shows. *)
From Coq Require Import List String Bool Reals.
From Verif Require Import SpecReal SpecInfo PBase PInfo PGamma PLog.
Import ListNotations.
Local Open Scope string_scope.
Local Open Scope list_scope.

Section Values.
  Context {T : Type} {NM : Num T} {X : NumText T}.

  Definition mute (ls : list (line T)) : Prop := Forall (fun l => match l with LValue _ _ => False | _ => True end) ls.
  Lemma mute_none ls : mute ls -> valuesShown ls = [].
  Proof. intro H. induction H as [|l t Hl H IH]; [reflexivity|]. cbn [valuesShown flat_map]. unfold valuesShown in IH. rewrite IH. destruct l; try reflexivity. destruct Hl. Qed.
  Lemma andThen_mute (a b : shown T) : mute (fst a) -> mute (fst b) -> mute (fst (andThen a b)).
  Proof. destruct a as [la [e|]]; [intros; assumption|]. cbn. intros. apply Forall_app. now split. Qed.
  Lemma showAll_mute {A} (f : A -> shown T) l : (forall x, mute (fst (f x))) -> mute (fst (showAll f l)).
  Proof. intro H. induction l as [|x t IH]; [constructor|]. now apply andThen_mute. Qed.
  Lemma map_mute {A} (f : A -> line T) l : (forall x, match f x with LValue _ _ => False | _ => True end) -> mute (map f l).
  Proof. intro H. induction l as [|x t IH]; cbn [map]; constructor; [exact (H x)|exact IH]. Qed.
  Lemma row_mute a k n : mute (fst (showRow (T := T) a k n)).
  Proof. unfold showRow. destruct (mapM _ _); cbn; repeat constructor. Qed.
  Lemma element_mute (e : element T) : mute (fst (showElement e)).
  Proof.
    destruct e as [d|a|m|[kind x|cs]]; cbn [showElement say fst showPlelem].
    - repeat constructor.
    - unfold showArray. apply andThen_mute; [repeat constructor|]. destruct (bind _ _) as [[k n]|]; [|constructor].
      destruct (Nat.ltb 10 n); [apply andThen_mute; [|apply andThen_mute; [repeat constructor|]]|]; apply showAll_mute; intro; apply row_mute.
    - unfold showIMap. apply andThen_mute; [repeat constructor|]. destruct (Nat.ltb _ 15); [repeat constructor|].
      destruct (mapM _ _) as [pairs|]; [|constructor].
      assert (Q : forall n, mute (fst (sayOr (let* p := getn pairs n in Ok [LRow (T := T) p])))) by (intro n; destruct (getn pairs n); repeat constructor).
      apply andThen_mute; [|apply andThen_mute; [repeat constructor|]]; apply showAll_mute; intro; apply Q.
    - repeat constructor.
    - constructor; [exact Logic.I|]. apply map_mute. intros [k x]. exact Logic.I.
  Qed.
  Lemma header_mute type (h : header T) : mute (fst (showHeader type h)).
  Proof.
    unfold showHeader. apply andThen_mute; [|apply showAll_mute, element_mute]. cbn [say fst]. constructor; [exact Logic.I|].
    apply Forall_app. split; [apply map_mute; intros [k v]; exact Logic.I|].
    apply Forall_app. split; [apply map_mute; intros [k v]; exact Logic.I|apply map_mute; intros; exact Logic.I].
  Qed.
  Lemma values_app ls ls' : valuesShown (T := T) (ls ++ ls') = valuesShown ls ++ valuesShown ls'.
  Proof. apply flat_map_app. Qed.
  Lemma node_values h (b : body T) ls : Forall canShow (h_elems h) -> childShown b = (ls, None) ->
    valuesShown (fst (showNode (Node h b))) = valuesShown ls.
  Proof.
    intros C E. rewrite showNode_eq. apply header_fine with (type := nodeTag b) in C. rewrite andThen_lines by exact C.
    rewrite values_app, (mute_none (fst (showHeader _ _)) (header_mute _ _)), E. cbn [app]. unfold andThen, say. cbn [fst snd]. rewrite values_app. cbn. apply app_nil_r.
  Qed.

  Theorem cdl_shown (h : header T) (v : cdl T) b k xs :
    b = BCDL v \/ b = BColorCorrection v -> Forall canShow (h_elems h) ->
    (In (k, xs) (valuesShown (fst (showNode (Node h b)))) <->
     k = "slope" /\ c_slope v = Some xs \/ k = "offset" /\ c_offset v = Some xs \/ k = "power" /\ c_power v = Some xs \/
     k = "saturation" /\ exists x, xs = [x] /\ c_sat v = Some x).
  Proof.
    intros B C. rewrite (node_values h b (showCdl v) C) by (destruct B as [-> | ->]; reflexivity).
    destruct v as [sl of po sa]. unfold showCdl. cbn [c_slope c_offset c_power c_sat]. rewrite !values_app, !in_app_iff.
    assert (O : forall name (o : option (list T)), In (k, xs) (valuesShown match o with Some ys => [LValue name ys] | None => [] end) <-> k = name /\ o = Some xs).
    { intros name [ys|]; cbn; split; try tauto; [intros [E|[]]; injection E as <- <-; auto|intros [-> E]; injection E as ->; auto|intros [_ E]; discriminate]. }
    rewrite !O. assert (S : In (k, xs) (valuesShown match sa with Some x => [LValue "saturation" [x]] | None => [] end) <-> k = "saturation" /\ exists x, xs = [x] /\ sa = Some x).
    { destruct sa as [x|]; cbn; split; try tauto; [intros [E|[]]; injection E as <- <-; eauto|intros [-> (y & -> & E)]; injection E as ->; auto|intros [_ (y & _ & E)]; discriminate]. }
    rewrite S. tauto.
  Qed.
End Values.

Theorem gamma_shown {X : NumText R} h ps style dIn dOut gamma offset :
  isGamma h ps style dIn dOut gamma offset -> Forall canShow (h_elems h) ->
  valuesShown (fst (showNode (Node h (BGamma ps)))) = [("gamma", three gamma); ("offset", three offset)].
Proof.
  intros H C. apply isGamma_params in H. erewrite node_values; [|exact C|cbn [childShown]; unfold showGamma; rewrite H; reflexivity]. reflexivity.
Qed.
Theorem log_shown {X : NumText R} h ps style dIn dOut s :
  isLog h ps style dIn dOut s -> Forall canShow (h_elems h) ->
  valuesShown (fst (showNode (Node h (BLog ps)))) =
    [("gamma", three (lsGamma s)); ("ref white", three (lsWhite s)); ("ref black", three (lsBlack s));
     ("highlight", three (lsHigh s)); ("shadow", three (lsShadow s))].
Proof.
  intros H C. apply isLog_params in H. erewrite node_values; [|exact C|cbn [childShown]; unfold showLog; rewrite H; reflexivity]. reflexivity.
Qed.
