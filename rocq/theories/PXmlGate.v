(** The integer flag of arrays and the encoding feature gate. *)
From Coq Require Import List Arith Lia ZArith String Bool.
From Verif Require Import PBase PXmlArray SpecXml.
Import ListNotations.
Local Open Scope list_scope.

Section Gate.
  Context {T : Type} {NM : Num T} {X : NumText T}.

  Lemma pyint_finite' (x : T) : finite x -> pyint x = Ok (ntrunc x).
  Proof. intros [H H']. unfold pyint. now rewrite H, H'. Qed.
  Lemma pyint_not (x : T) : ~ finite x -> exists e, pyint x = Err e.
  Proof.
    intro H. unfold pyint. destruct (nisnan x) eqn:A; [eauto|]. destruct (nisinf x) eqn:B; [eauto|]. exfalso. now apply H.
  Qed.

  Lemma rowText_flag c a sample : Forall finite sample ->
    rowText c (withIntegers true a) sample = rowText c (withIntegers false a) sample.
  Proof.
    intro F. rewrite !rowText_form. cbn [withIntegers a_int a_enc a_raw].
    rewrite (mapM_Ok _ ntrunc); [reflexivity|]. intros x Hx. apply pyint_finite'. now apply (proj1 (Forall_forall _ _) F).
  Qed.

  Lemma columns_row dims k : arrayColumns dims = Ok k <-> rowLength dims = Some k.
  Proof.
    destruct dims as [|a [|b [|c [|d [|e t]]]]]; cbn; split; intro H; try discriminate; try (injection H as <-; reflexivity).
  Qed.
  Lemma rows_chunks k (vs : list T) : k <> 0%nat -> List.concat (chunks k (List.length vs / k) vs) = completeRows k vs.
  Proof.
    intro H. rewrite chunks_concat. unfold completeRows. f_equal. pose proof (Nat.div_mod (List.length vs) k H). lia.
  Qed.
  Lemma arrayWrite_rows c (a : array T) :
    arrayWrite c a =
    let* columns := arrayColumns (a_dims a) in
    let* n := pydiv (List.length (a_vals a)) columns in
    let* rows := mapM (rowText c a) (chunks columns n (a_vals a)) in
    Ok (XElem "Array" (("dim"%string, join " " (map natText (a_dims a))) ::
                       match n with O => [] | _ => if inList (a_enc a) knownEncodings then [("floatEncoding"%string, a_enc a)] else [] end)
          (Some (fold_left (fun acc r => (acc ++ r ++ text nl)%string) rows (text nl) ++ text ["009"%char; "009"%char])%string) []).
  Proof.
    unfold arrayWrite. destruct (arrayColumns (a_dims a)) as [k|]; [|reflexivity]. cbn [bind].
    destruct (pydiv _ k) as [n|]; [|reflexivity]. cbn [bind]. unfold chunks. rewrite mapM_map. reflexivity.
  Qed.

  Lemma integers_ignored c a : rowsFinite a -> arrayWrite c (withIntegers true a) = arrayWrite c (withIntegers false a).
  Proof.
    intro F. rewrite !arrayWrite_rows. cbn [withIntegers a_dims a_vals a_enc].
    destruct (arrayColumns (a_dims a)) as [k|] eqn:C; [|reflexivity]. cbn [bind]. apply columns_row in C.
    destruct (pydiv _ k) as [n|] eqn:P; [|reflexivity]. cbn [bind]. apply pydiv_ok in P as [Nz ->].
    specialize (F k C). rewrite <- rows_chunks in F by exact Nz. f_equal. apply mapM_ext. intros s Hs. apply rowText_flag.
    apply Forall_forall. intros x Hx. apply (proj1 (Forall_forall _ _) F). apply in_concat. eauto.
  Qed.

  Lemma integers_raise c a k x : rowLength (a_dims a) = Some k -> k <> 0%nat -> In x (completeRows k (a_vals a)) -> ~ finite x ->
    exists e, arrayWrite c (withIntegers true a) = Err e.
  Proof.
    intros C Nz Hx Nf. destruct (arrayWrite c (withIntegers true a)) as [e|e] eqn:E; [|eauto]. exfalso.
    destruct (arrayWrite_inv _ _ _ E) as (k' & n & rows & C' & _ & -> & M & _). cbn [withIntegers a_dims a_vals] in *.
    apply columns_row in C'. assert (k' = k) by congruence. subst k'. rewrite <- rows_chunks in Hx by exact Nz.
    apply in_concat in Hx as (s & Hs & Hx).
    assert (O : is_ok (rowText c (withIntegers true a) s)) by (apply (proj1 (mapM_ok_iff _ _) (ex_intro _ _ M)); exact Hs).
    destruct O as [y O]. rewrite rowText_form in O. cbn [withIntegers a_int] in O.
    destruct (mapM pyint s) as [zs|] eqn:Z; [|discriminate].
    assert (Q : is_ok (pyint x)) by (apply (proj1 (mapM_ok_iff _ _) (ex_intro _ _ Z)); exact Hx).
    destruct Q as [z Q]. destruct (pyint_not x Nf) as [e' Q']. congruence.
  Qed.

  Lemma encoding_refused c a k : duiker_on c = false -> a_enc a <> "string"%string ->
    rowLength (a_dims a) = Some k -> k <> 0%nat -> completeRows k (a_vals a) <> [] ->
    (a_int a = true -> Forall finite (completeRows k (a_vals a))) ->
    arrayWrite c a = Err UnsupportedExtensionError.
  Proof.
    intros D E C Nz Ne F. rewrite arrayWrite_rows. rewrite (proj2 (columns_row _ _) C). cbn [bind].
    replace (pydiv (List.length (a_vals a)) k) with (Ok (List.length (a_vals a) / k)%nat) by (destruct k; [contradiction|reflexivity]).
    cbn [bind]. rewrite <- rows_chunks in * by exact Nz.
    destruct (chunks k _ (a_vals a)) as [|s t]; [now contradiction Ne|]. rewrite mapM_cons.
    assert (R : rowText c a s = Err UnsupportedExtensionError); [|now rewrite R].
    rewrite rowText_form. apply String.eqb_neq in E. rewrite E, D. cbn [orb].
    destruct (a_int a); [|reflexivity]. rewrite (mapM_Ok _ ntrunc); [reflexivity|]. intros x Hx. apply pyint_finite'.
    apply (proj1 (Forall_forall _ _) (F eq_refl)). cbn [List.concat]. apply in_or_app. now left.
  Qed.
  (** With nothing to write there is nothing to refuse. *)
  Lemma encoding_empty c a k : rowLength (a_dims a) = Some k -> k <> 0%nat -> completeRows k (a_vals a) = [] -> is_ok (arrayWrite c a).
  Proof.
    intros C Nz Em. rewrite arrayWrite_rows. rewrite (proj2 (columns_row _ _) C). cbn [bind].
    replace (pydiv (List.length (a_vals a)) k) with (Ok (List.length (a_vals a) / k)%nat) by (destruct k; [contradiction|reflexivity]).
    cbn [bind]. rewrite <- rows_chunks in Em by exact Nz. rewrite chunks_concat in Em.
    assert (Z : (List.length (a_vals a) / k = 0)%nat).
    { apply (f_equal (@List.length T)) in Em. rewrite firstn_length_le in Em by (rewrite Nat.mul_comm; apply Nat.mul_div_le; exact Nz).
      cbn in Em. nia. }
    rewrite Z. eexists. reflexivity.
  Qed.

  (** Reading arrays does not look at the features. *)
  Lemma nodeChild_any c c' strict (n : node T) e sub :
    elementType (x_tag e) <> "DynamicParameter"%string -> nodeChild c strict n e sub = nodeChild c' strict n e sub.
  Proof. intro H. unfold nodeChild. apply String.eqb_neq in H. now rewrite H. Qed.
End Gate.

Lemma set_encoding {T} c (a : array T) enc :
  (duiker_on c = true -> exists a', setFloatEncoding c a enc = (a', Ok tt) /\ a_enc a' = enc) /\
  (duiker_on c = false -> exists a', setFloatEncoding c a enc = (a', Err UnsupportedExtensionError) /\ a_enc a' = "string"%string).
Proof. unfold setFloatEncoding. split; intros ->; eexists; split; reflexivity. Qed.
