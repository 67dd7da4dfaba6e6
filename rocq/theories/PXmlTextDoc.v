(** The documents of lists are plain; characters that cannot be saved. *)
From Coq Require Import List String Ascii Arith Lia ZArith NArith Bool.
From Verif Require Import PBase PChain PRegistry SpecXmlText PNumText PXmlRead PXmlWrite PXmlArray PFiles PIndent PXmlText PXmlTree.
Import ListNotations.
Local Open Scope string_scope.
Local Open Scope list_scope.

(** * Names *)

Definition nameb (s : string) : bool :=
  match chars s with
  | [] => false
  | a :: t => existsb (Ascii.eqb a) (chars firstLetters) && forallb (fun b => existsb (Ascii.eqb b) (chars laterLetters)) t
  end && negb (String.eqb s "xmlns").
Lemma in_eqb a l : existsb (Ascii.eqb a) l = true -> In a l.
Proof. intro H. apply existsb_exists in H as (b & Hb & E). apply Ascii.eqb_eq in E. now subst. Qed.
Lemma name_check s : nameb s = true -> xmlName s.
Proof.
  unfold nameb, xmlName. intro H. apply andb_true_iff in H as [H1 H2]. split; [|now intros ->].
  destruct (chars s) as [|a t]; [discriminate|]. apply andb_true_iff in H1 as [Ha Ht]. split; [now apply in_eqb|].
  apply Forall_forall. intros b Hb. apply in_eqb. rewrite forallb_forall in Ht. now apply Ht.
Qed.
Ltac named := apply name_check; reflexivity.

(** * Texts *)

Lemma line_body s : lineText s -> bodyText s.
Proof. apply Forall_impl. auto. Qed.
Lemma lineText_app s t : lineText s -> lineText t -> lineText (s ++ t)%string.
Proof. unfold lineText. rewrite chars_app. apply Forall_app_mk. Qed.
Definition printableb (a : ascii) : bool := ((32 <=? N_of_ascii a) && (N_of_ascii a <=? 126))%N.
Lemma line_check s : forallb printableb (chars s) = true -> lineText s.
Proof.
  intro H. apply Forall_forall. intros a Ha. rewrite forallb_forall in H. specialize (H a Ha). unfold printableb in H. apply andb_true_iff in H as [H1 H2].
  apply N.leb_le in H1, H2. now split.
Qed.
Ltac printed := apply line_check; reflexivity.
Lemma line_digits l : digits l -> lineText (text l).
Proof.
  intro H. unfold lineText. rewrite chars_text. eapply Forall_impl; [|exact H]. intros a. unfold isDigit, printable. cbv zeta. rewrite andb_true_iff, !N.leb_le. lia.
Qed.
Lemma line_sign neg : lineText (signText neg).
Proof. destruct neg; printed. Qed.
Lemma line_exp e : lineText (expText e).
Proof.
  unfold expText. cbv zeta. apply lineText_app; [destruct (_ <? _)%Z; printed|]. apply line_digits, digits_app; [apply digits_zeros|apply decimal_digits].
Qed.
Lemma drop_digits l : digits l -> digits (dropZeros l).
Proof. intro H. destruct (dropZeros_spec l) as [j Ej]. rewrite Ej in H. now apply Forall_app in H. Qed.
Lemma line_sig n : lineText (sigText n).
Proof.
  destruct n as [neg m k|neg|]; cbn [sigText]; [|apply lineText_app; [apply line_sign|printed]|printed].
  apply lineText_app; [apply line_sign|]. destruct (m =? 0)%N; [printed|]. cbv zeta.
  assert (D : digits (dropZeros (decimal m))) by apply drop_digits, decimal_digits.
  destruct (_ || _).
  - apply lineText_app; [apply line_digits, digits_firstn, D|]. apply lineText_app; [|apply line_exp].
    pose proof (digits_skipn 1 _ D) as S. destruct (skipn 1 _); [printed|]. apply lineText_app; [printed|now apply line_digits].
  - destruct (_ <? 0)%Z.
    + apply lineText_app; [printed|]. apply line_digits, digits_app; [apply digits_zeros|exact D].
    + apply lineText_app; [apply line_digits, digits_app; [now apply digits_firstn|apply digits_zeros]|]. apply lineText_app; [printed|].
      pose proof (digits_skipn (S (Z.to_nat (k + Z.of_nat (List.length (decimal m)) - 1))) _ D) as S. destruct (skipn _ _); [printed|now apply line_digits].
Qed.
Lemma line_fix n : lineText (fixText n).
Proof.
  destruct n as [neg m k|neg|]; cbn [fixText]; [|apply lineText_app; [apply line_sign|printed]|printed]. cbv zeta.
  assert (D : digits (zeros (S (Z.to_nat (- k)) - List.length (decimal m)) ++ decimal m)) by (apply digits_app; [apply digits_zeros|apply decimal_digits]).
  apply lineText_app; [apply line_sign|]. apply lineText_app; [apply line_digits, digits_firstn, D|].
  destruct (Z.to_nat (- k)); [printed|]. apply lineText_app; [printed|]. apply line_digits, digits_skipn, D.
Qed.
Lemma line_z z : lineText (zText z).
Proof. unfold zText. destruct (z <? 0)%Z; [apply (lineText_app "-"); [printed|]|]; apply line_digits, decimal_digits. Qed.
Lemma line_nat n : lineText (natText n).
Proof. apply line_digits, decimal_digits. Qed.
Lemma line_hex w : forall n, lineText (text (hexDigits w n)).
Proof.
  induction w as [|w IH]; intro n; [constructor|]. cbn [hexDigits]. unfold lineText in *. rewrite chars_text. specialize (IH (n / 16)%N). rewrite chars_text in IH.
  apply Forall_app_mk; [exact IH|]. constructor; [|constructor]. pose proof (N.mod_lt n 16 ltac:(discriminate)) as M. set (d := (n mod 16)%N) in *. clearbody d.
  unfold hexChar, digitChar, printable. destruct (N.ltb_spec d 10); rewrite N_ascii_embedding by lia; lia.
Qed.
Lemma line_join sep l : lineText sep -> Forall lineText l -> lineText (join sep l).
Proof.
  intros S H. induction H as [|s l H Hl IH]; [constructor|]. destruct l; [exact H|]. cbn [join] in *. repeat apply lineText_app; assumption.
Qed.
Lemma line_pad w s : lineText s -> lineText (padLeft w s).
Proof.
  intro H. unfold padLeft. apply lineText_app; [|exact H]. unfold lineText. rewrite chars_text. apply Forall_forall. intros a Ha. apply repeat_spec in Ha. subst. split; discriminate.
Qed.
Lemma bodyText_app s t : bodyText s -> bodyText t -> bodyText (s ++ t)%string.
Proof. unfold bodyText. rewrite chars_app. apply Forall_app_mk. Qed.
Lemma join_nonempty sep l : l <> [] -> Forall (fun s => s <> "") l -> join sep l <> "".
Proof.
  intros N H. destruct H as [|s l H Hl]; [contradiction|]. destruct l; [exact H|]. cbn [join]. destruct s; [contradiction|discriminate].
Qed.
Lemma mapM_each {A B} (f : A -> res B) (P : B -> Prop) : (forall x y, f x = Ok y -> P y) -> forall l ys, mapM f l = Ok ys -> Forall P ys.
Proof.
  intros H l. induction l as [|x l IH]; intros ys E; cbn [mapM] in E; [apply Ok_inj in E; subst; constructor|].
  destruct (f x) as [y|] eqn:Ef; [|discriminate]. cbn [bind] in E. destruct (mapM f l) as [zs|]; [|discriminate]. apply Ok_inj in E. subst. constructor; [now apply (H x)|now apply IH].
Qed.

(** * Documents *)

Definition fine (e : xelem) : Prop := plainDocument e /\ lineAttributes e.
Lemma fine_mk tag attrs x ch : xmlName tag -> NoDup (map fst attrs) -> Forall (fun kv => xmlName (fst kv) /\ lineText (snd kv)) attrs ->
  match x with None => True | Some s => s <> "" /\ bodyText s /\ ch = [] end -> Forall fine ch -> fine (XElem tag attrs x ch).
Proof.
  intros H1 H2 H3 H4 H5. split.
  - apply plain_eq. split; [exact H1|]. split; [exact H2|]. split; [|split; [exact H4|]].
    + eapply Forall_impl; [|exact H3]. intros kv [A B]. split; [exact A|now apply line_body].
    + eapply Forall_impl; [|exact H5]. intros e He. apply He.
  - apply line_eq. split; [eapply Forall_impl; [|exact H3]; intros kv Hk; apply Hk|]. eapply Forall_impl; [|exact H5]. intros e He. apply He.
Qed.
Lemma fine_leaf k x : xmlName k -> cleanText x -> fine (leaf k x).
Proof. intros H C. apply fine_mk; try solve [constructor|assumption]. destruct x; [|exact I]. destruct C. auto. Qed.
Lemma fine_note p : cleanNote p -> fine (plelemWrite p).
Proof.
  destruct p as [k x|cs]; cbn [cleanNote plelemWrite]; [intros [H1 H2]; now apply fine_leaf|]. intro H.
  apply fine_mk; try solve [constructor|named|exact I]. apply Forall_map. eapply Forall_impl; [|exact H]. intros [k x] [H1 H2]. now apply fine_leaf.
Qed.

Section Docs.
  Context {T : Type} {NM : Num T} {X : NumText T}.

  Lemma line_str (x : T) : lineText (formatStr x).
  Proof. apply line_sig. Qed.
  Lemma str_nonempty (x : T) : formatStr x <> "".
  Proof. apply word_sig. Qed.
  Lemma fine_number k (x : T) : xmlName k -> fine (leaf k (Some (formatStr x))).
  Proof. intro H. apply fine_leaf; [exact H|]. split; [apply str_nonempty|apply line_body, line_str]. Qed.

  Lemma line_rowOf w word (sample : list T) r : (forall x s, word x = Ok s -> lineText s) -> rowOf w word sample = Ok r -> lineText r.
  Proof.
    intros H E. unfold rowOf in E. destruct (mapM word sample) as [ws|] eqn:M; [|discriminate]. apply Ok_inj in E. subst.
    apply line_join; [printed|]. apply Forall_map. apply (mapM_each word lineText) in M; [|exact H]. eapply Forall_impl; [|exact M]. intro s. apply line_pad.
  Qed.
  Lemma line_row c a (sample : list T) r : rowText c a sample = Ok r -> lineText r.
  Proof.
    unfold rowText. intro E. destruct (if a_int a then _ else _); [|discriminate]. cbn [bind] in E.
    repeat match type of E with
           | (if ?b then _ else _) = _ => destruct b
           | Err _ = _ => discriminate
           end;
      (eapply line_rowOf; [|exact E]); intros x s W; clear E;
      unfold uint16Word, uint32Word, uint64Word, hex16Word, hex32Word, hex64Word, decimalWord in W;
      repeat match type of W with (if ?b then _ else _) = _ => destruct b; [discriminate|] end; apply Ok_inj in W; subst;
      first [apply line_z|apply line_hex|apply line_fix].
  Qed.
  Lemma fine_array c (a : array T) e : arrayWrite c a = Ok e -> fine e.
  Proof.
    intro E. destruct (arrayWrite_inv _ _ _ E) as (cols & n & rows & _ & _ & _ & M & ->). apply fine_mk.
    - named.
    - destruct n; [repeat constructor; intros []|]. destruct (inList _ _); [|repeat constructor; intros []].
      constructor; [intros [H|[]]; discriminate|repeat constructor; intros []].
    - assert (D : xmlName "dim" /\ lineText (join " " (map natText (a_dims a)))).
      { split; [named|]. apply line_join; [printed|]. apply Forall_map, Forall_forall. intros. apply line_nat. }
      constructor; [exact D|]. destruct n; [constructor|]. destruct (inList (a_enc a) knownEncodings) eqn:K; [|constructor]. constructor; [|constructor].
      split; [named|]. cbn [snd]. apply inList_In in K. cbn in K. repeat destruct K as [<-|K]; try printed. destruct K.
    - assert (B : bodyText (fold_left (fun acc r => (acc ++ r ++ text nl)%string) rows (text nl))).
      { apply (mapM_each (rowText c a) lineText) in M; [|intros x y; apply line_row].
        assert (K : forall acc, bodyText acc -> bodyText (fold_left (fun acc r => (acc ++ r ++ text nl)%string) rows acc)).
        { clear - M. induction M as [|r rows Hr _ IH]; intros acc Ha; [exact Ha|]. cbn [fold_left]. apply IH. apply bodyText_app; [exact Ha|]. apply bodyText_app; [now apply line_body|].
          constructor; [right; right; reflexivity|constructor]. }
        apply K. constructor; [right; right; reflexivity|constructor]. }
      split; [|split; [|reflexivity]].
      + destruct (fold_left _ rows _); discriminate.
      + apply bodyText_app; [exact B|]. constructor; [right; left; reflexivity|]. constructor; [right; left; reflexivity|constructor].
    - constructor.
  Qed.
  Lemma fine_imap (m : imap T) e : im_in m <> [] -> imapWrite m = Ok e -> fine e.
  Proof.
    unfold imapWrite. intros N E. destruct (mapM imapPair (padZip (im_in m) (im_out m))) as [ws|] eqn:M; [|discriminate]. apply Ok_inj in E. subst.
    assert (W : Forall (fun s => s <> "" /\ lineText s) ws).
    { eapply mapM_each; [|exact M]. intros [[a|] [b|]] s E; cbn [imapPair] in E; try discriminate. destruct (pyint b) as [n|]; [|discriminate]. apply Ok_inj in E. subst. split.
      - pose proof (str_nonempty a) as Na. destruct (formatStr a); [contradiction|discriminate].
      - apply lineText_app; [apply line_str|]. apply (lineText_app "@"); [printed|apply line_z]. }
    assert (Nw : ws <> []).
    { intros ->. destruct (im_in m) as [|a l]; [contradiction|]. destruct (im_out m) as [|b l']; cbn [padZip mapM] in M; destruct (imapPair _); try discriminate; cbn [bind] in M; destruct (mapM _ _); discriminate. }
    apply fine_mk.
    - named.
    - repeat constructor. intros [].
    - constructor; [split; [named|cbn [snd]; destruct (im_dim m); [apply line_nat|printed]]|constructor].
    - split; [apply join_nonempty; [exact Nw|eapply Forall_impl; [|exact W]; intros s Hs; apply Hs]|]. split; [|reflexivity].
      apply line_body, line_join; [printed|]. eapply Forall_impl; [|exact W]. intros s Hs. apply Hs.
    - constructor.
  Qed.
  Lemma fine_element c (e : element T) d : cleanElement e -> elementWrite c e = Ok d -> fine d.
  Proof.
    destruct e as [x|a|m|p]; cbn [cleanElement elementWrite]; intros C E.
    - apply Ok_inj in E. subst. apply fine_leaf; [named|exact C].
    - exact (fine_array c a d E).
    - exact (fine_imap m d C E).
    - apply Ok_inj in E. subst. now apply fine_note.
  Qed.

  Definition cleanBody (b : body T) : Prop :=
    match b with
    | BCDL v | BColorCorrection v => cleanCdl v
    | BGamma ps => Forall (fun p => cleanChannel (g_chan p)) ps
    | BLog ps => Forall (fun p => cleanChannel (l_chan p)) ps
    | _ => True
    end.
  Lemma fine_floats k (vs : list T) : xmlName k -> vs <> [] -> fine (leaf k (Some (floatsText vs))).
  Proof.
    intros H N. apply fine_leaf; [exact H|]. split.
    - apply join_nonempty; [destruct vs; [contradiction|discriminate]|]. apply Forall_map, Forall_forall. intros x _. apply str_nonempty.
    - apply line_body, line_join; [printed|]. apply Forall_map, Forall_forall. intros x _. apply line_str.
  Qed.
  Lemma fine_attrs tag attrs : xmlName tag -> NoDup (map fst attrs) -> Forall (fun kv => xmlName (fst kv) /\ lineText (snd kv)) attrs -> fine (XElem tag attrs None []).
  Proof. intros. apply fine_mk; try assumption; constructor. Qed.
  Ltac distinctKeys := cbn [map fst app]; repeat (constructor; [cbn [In]; intuition discriminate|]); constructor.
  Ltac numbers := repeat (constructor; [split; [named|apply line_str]|]); try constructor.
  Lemma fine_body (b : body T) : cleanBody b -> Forall fine (bodyChildren b).
  Proof.
    assert (C : forall v : cdl T, cleanCdl v -> Forall fine (cdlChildren v)).
    { intros v (C1 & C2 & C3). unfold cdlChildren. constructor; [|constructor; [|constructor]].
      - apply fine_mk; try solve [named|constructor]. repeat apply Forall_app_mk.
        + destruct (c_slope v) as [[|y l]|]; [now contradiction C1| |constructor]. constructor; [apply fine_floats; [named|discriminate]|constructor].
        + destruct (c_offset v) as [[|y l]|]; [now contradiction C2| |constructor]. constructor; [apply fine_floats; [named|discriminate]|constructor].
        + destruct (c_power v) as [[|y l]|]; [now contradiction C3| |constructor]. constructor; [apply fine_floats; [named|discriminate]|constructor].
      - apply fine_mk; try solve [named|constructor]. destruct (c_sat v); [constructor; [apply fine_number; named|constructor]|constructor]. }
    destruct b; cbn [bodyChildren cleanBody]; intro H; try solve [constructor|now apply C].
    - apply Forall_map. eapply Forall_impl; [|exact H]. intros p Hp. unfold gammaChild. apply fine_attrs; [named| |].
      + destruct (negb _), (g_chan p); distinctKeys.
      + constructor; [split; [named|apply line_str]|]. apply Forall_app_mk; [destruct (negb _); numbers|]. cbv beta in Hp; destruct (g_chan p) as [ch|]; [|constructor]. constructor; [split; [named|exact Hp]|constructor].
    - apply Forall_map. eapply Forall_impl; [|exact H]. intros p Hp. unfold logChild. apply fine_attrs; [named| |].
      + destruct (l_chan p); distinctKeys.
      + apply Forall_app_mk; [numbers|]. cbv beta in Hp; destruct (l_chan p) as [ch|]; [|constructor]. constructor; [split; [named|exact Hp]|constructor].
    - constructor; [|constructor]. unfold ecChild. apply fine_attrs; [named|distinctKeys|numbers].
  Qed.
  Lemma mapM_both {A B} (f : A -> res B) (P : A -> Prop) (Q : B -> Prop) : (forall x y, P x -> f x = Ok y -> Q y) -> forall l ys, Forall P l -> mapM f l = Ok ys -> Forall Q ys.
  Proof.
    intros H l. induction l as [|x l IH]; intros ys F E; cbn [mapM] in E; [apply Ok_inj in E; subst; constructor|]. inversion_clear F as [|? ? F1 F2].
    destruct (f x) as [y|] eqn:Ef; [|discriminate]. cbn [bind] in E. destruct (mapM f l) as [zs|]; [|discriminate]. apply Ok_inj in E. subst. constructor; [now apply (H x)|now apply IH].
  Qed.
  Lemma fine_header c tag (h : header T) more e : xmlName tag -> cleanHeader h -> Forall fine more -> headerWrite c tag h more = Ok e -> fine e.
  Proof.
    unfold headerWrite. intros Hn (H1 & H2 & H3 & H4 & H5) M E. destruct (mapM (elementWrite c) (h_elems h)) as [es|] eqn:Ee; [|discriminate]. apply Ok_inj in E. subst.
    apply fine_mk; [exact Hn| | |exact I|].
    - rewrite map_map. erewrite map_ext; [exact H1|]. now intros [k v].
    - apply Forall_map. eapply Forall_impl; [|exact H2]. intros [k v] H. exact H.
    - repeat apply Forall_app_mk; [| | |exact M].
      + apply Forall_map. eapply Forall_impl; [|exact H3]. intros [k v] H. now apply fine_number.
      + apply Forall_map. eapply Forall_impl; [|exact H4]. intros p H. apply fine_attrs; [named|repeat constructor; intros []|]. constructor; [split; [named|exact H]|constructor].
      + eapply mapM_both; [|exact H5|exact Ee]. intros x y. apply fine_element.
  Qed.

  Lemma clean_all deep (ps : list (node T)) :
    (fix all (ps : list (node T)) : Prop := match ps with [] => True | p :: t => cleanNode deep p /\ all t end) ps <-> Forall (cleanNode deep) ps.
  Proof. induction ps as [|p ps IH]; [split; [constructor|exact (fun _ => I)]|]. rewrite Forall_cons_iff, IH. reflexivity. Qed.
  Lemma fine_tag (b : body T) : xmlName (nodeTag b).
  Proof. destruct b; named. Qed.
  Lemma fine_node c deep (n : node T) : forall f es, deep = true \/ f = Some false -> cleanNode deep n -> nodeWrite c f n = Ok es -> Forall fine es.
  Proof.
    induction n as [h b HG HR] using node_deep_ind. intros f es Df C.
    assert (L : forall f (ps : list (node T)), Forall (fun p => forall f es, deep = true \/ f = Some false -> cleanNode deep p -> nodeWrite c f p = Ok es -> Forall fine es) ps ->
                deep = true \/ f = Some false -> Forall (cleanNode deep) ps -> forall es, nodesWrite c f ps = Ok es -> Forall fine es).
    { clear. intros f ps H Df. induction H as [|p t Hp _ IH]; intros C es E.
      - rewrite nodesWrite_nil in E. apply Ok_inj in E. subst. constructor.
      - inversion_clear C as [|? ? C1 C2]. rewrite nodesWrite_cons in E. destruct (nodeWrite c f p) as [e1|] eqn:E1; [|discriminate]. cbn [bind] in E.
        destruct (nodesWrite c f t) as [e2|]; [|discriminate]. cbn [bind] in E. apply Ok_inj in E. subst. apply Forall_app_mk; [eauto|auto]. }
    destruct C as [Ch Cb].
    assert (D : plainBody b \/ (exists w pl, b = BReference w pl) \/ exists ps, b = BGroup ps) by (destruct b; cbn; eauto).
    destruct D as [P|[(w & pl & ->)|(ps & ->)]].
    - rewrite nodeWrite_plain by exact P. destruct (headerWrite c (nodeTag b) h (bodyChildren b)) as [e|] eqn:E; [|discriminate]. cbn [bind].
      intro K. apply Ok_inj in K. subst. constructor; [|constructor]. apply (fine_header c (nodeTag b) h (bodyChildren b)); [apply fine_tag|exact Ch| |exact E].
      apply fine_body. destruct b; try contradiction; exact Cb.
    - destruct (match f with Some f => f | None => w end) eqn:Ef.
      + assert (Dt : deep = true) by (destruct Df as [?| ->]; [assumption|discriminate]).
        destruct pl as [[a v e ps]|].
        * assert (N : nodeWrite c f (Node h (BReference w (Some (PList a v e ps)))) = nodesWrite c None ps).
          { cbn [nodeWrite]. rewrite Ef. reflexivity. }
          rewrite N. apply L; [exact (HR w a v e ps eq_refl)|now left|]. apply clean_all. exact (Cb Dt).
        * cbn [nodeWrite]. rewrite Ef. discriminate.
      + assert (N : nodeWrite c f (Node h (BReference w pl)) = (let* e := headerWrite c (nodeTag (T := T) (BReference w pl)) h [] in Ok [e])).
        { cbn [nodeWrite]. rewrite Ef. destruct pl; reflexivity. }
        rewrite N. destruct (headerWrite c _ h []) as [e|] eqn:E; [|discriminate]. cbn [bind]. intro K. apply Ok_inj in K. subst.
        constructor; [|constructor]. exact (fine_header _ _ _ _ _ (fine_tag _) Ch (Forall_nil _) E).
    - rewrite nodeWrite_group. destruct (headerWrite c _ h []) as [e|] eqn:E; [|discriminate]. cbn [bind].
      destruct (nodesWrite c (Some false) ps) as [ns|] eqn:En; [|discriminate]. cbn [bind]. intro K. destruct e as [t a x cs]. apply Ok_inj in K. subst.
      constructor; [|constructor]. pose proof (fine_header _ _ _ _ _ (fine_tag (BGroup ps)) Ch (Forall_nil _) E) as F.
      assert (Ns : Forall fine ns) by (apply (L (Some false) ps); [exact (HG ps eq_refl)|now right|now apply clean_all|exact En]).
      assert (Ex : x = None) by (unfold headerWrite in E; destruct (mapM _ _); [|discriminate]; cbn [bind] in E; apply Ok_inj in E; now injection E).
      subst x. destruct F as [F1 F2]. apply plain_eq in F1 as (G1 & G2 & G3 & _ & G5). apply line_eq in F2 as [K1 K2].
      apply fine_mk; [exact G1|exact G2| |exact I|].
      + rewrite Forall_forall in *. intros kv Hk. split; [apply (G3 kv Hk)|apply (K1 kv Hk)].
      + apply Forall_app_mk; [|exact Ns]. rewrite Forall_forall in *. intros d Hd. split; auto.
  Qed.
  Lemma fine_list c f (l : plist T) root : cleanList f l -> listWrite c f l = Ok root -> fine root.
  Proof.
    destruct l as [attrs vals elems procs]. cbn [cleanList listWrite]. intros (H1 & H2 & H3 & H4 & H5) E.
    destruct (nodesWrite c (Some f) procs) as [ns|] eqn:En; [|discriminate]. apply Ok_inj in E. subst. apply fine_mk; [named|exact H1|exact H2|exact I|].
    repeat apply Forall_app_mk.
    - apply Forall_map. eapply Forall_impl; [|exact H3]. intros [k v] H. now apply fine_number.
    - apply Forall_map. eapply Forall_impl; [|exact H4]. exact fine_note.
    - assert (Df : f = true \/ Some f = Some false) by (destruct f; auto). clear - H5 En Df. revert ns En. induction H5 as [|p t Hp _ IH]; intros ns E.
      + rewrite nodesWrite_nil in E. apply Ok_inj in E. subst. constructor.
      + rewrite nodesWrite_cons in E. destruct (nodeWrite c (Some f) p) as [e1|] eqn:E1; [|discriminate]. cbn [bind] in E.
        destruct (nodesWrite c (Some f) t) as [e2|]; [|discriminate]. cbn [bind] in E. apply Ok_inj in E. subst. apply Forall_app_mk; [exact (fine_node c f p _ _ Df Hp E1)|now apply IH].
  Qed.
  Lemma clean_plain c f (l : plist T) root : cleanList f l -> listWrite c f l = Ok root -> plainDocument root /\ lineAttributes root.
  Proof. exact (fine_list c f l root). Qed.
End Docs.

(** * Saving and opening *)

Lemma pretty_head root t : xmlPrettify root = Ok t -> exists u, t = ("<?xml" ++ u)%string.
Proof.
  unfold xmlPrettify. cbv zeta. destruct (isAscii _); [|discriminate]. destruct (parseDom _) as [d|]; [|discriminate]. destruct (elements _ d); [|discriminate].
  intro E. apply Ok_inj in E. subst. eexists. unfold toprettyxml. cbn [append]. reflexivity.
Qed.
Section Save.
  Context {T : Type} {NM : Num T} {X : NumText T} {O : TextOk T}.
  Lemma clean_keeps zip unzip c f (l : plist T) root : gzipWorks zip unzip -> cleanList f l -> listWrite c f l = Ok root -> keepsDocument (textFiles zip unzip) root.
  Proof.
    intros [Z1 Z2] C W. destruct (clean_plain c f l root C W) as [P L]. apply text_keeps; [exact P|exact L|]. intros t E. destruct (pretty_head root t E) as [u ->]. auto.
  Qed.
  Lemma text_saved zip unzip c f gz (l : plist T) root : gzipWorks zip unzip -> cleanList f l -> listWrite c f l = Ok root -> gz = false \/ duiker_on c = true ->
    exists t root' steps, writeFile (textFiles zip unzip) c f gz l = (Ok true, steps ++ [if gz then zip t else t]) /\
      etreeParse t = Some root' /\ sameTree root root'.
  Proof.
    intros Z C W D. destruct (clean_keeps zip unzip c f l root Z C W) as (t & root' & Hp & Ha & Hx & Hs & _ & _). exists t, root'.
    unfold writeFile. rewrite W, Hp, Ha. destruct gz.
    - destruct D as [|D]; [discriminate|]. rewrite D. eexists (_ :: _). split; [reflexivity|]. now split.
    - eexists (_ :: _). split; [reflexivity|]. now split.
  Qed.
  Lemma text_save_open zip unzip c c' gz (l : plist T) fs path limit strict : gzipWorks zip unzip -> cleanList false l ->
    is_ok (listWrite c false l) -> gz = false \/ duiker_on c = true -> autodesk_on c' = true -> duiker_on c' = true ->
    exists steps b, writeFile (textFiles zip unzip) c false gz l = (Ok true, steps ++ [b]) /\
      (storableList (loadFrom (textFiles zip unzip) limit c' (putFile fs path b)) l ->
       openList (textFiles zip unzip) (S limit) c' (putFile fs path b) strict path = Ok (keptList l)).
  Proof.
    intros Z C [root W] D A1 A2. destruct (text_saved zip unzip c false gz l root Z C W D) as (t & root' & steps & Wf & _ & _).
    exists steps, (if gz then zip t else t). split; [exact Wf|]. intro S. exact (save_load _ c c' gz l root _ steps fs path limit strict A1 A2 S W (clean_keeps zip unzip c false l root Z C W) Wf).
  Qed.
End Save.

(** * Characters that cannot be saved *)

Lemma in_escaping f s a : (forall b, In b (f b) \/ b <> a) -> In a (chars s) -> In a (chars (escaping f s)).
Proof.
  intros F H. unfold escaping. rewrite chars_text. apply in_flat_map. exists a. split; [exact H|]. destruct (F a) as [|N]; [assumption|contradiction].
Qed.
Definition odd (a : ascii) : Prop := control a \/ outsideAscii a.
Lemma odd_ne a c : odd a -> (32 <= N_of_ascii c < 128)%N \/ N_of_ascii c = 10%N -> Ascii.eqb a c = false.
Proof. intros O H. destruct (Ascii.eqb_spec a c) as [->|]; [|reflexivity]. exfalso. unfold odd, control, outsideAscii in O. lia. Qed.
Lemma odd_cdata a : odd a -> cdataChar a = [a].
Proof. intro O. unfold cdataChar. rewrite !(odd_ne a) by (exact O || (cbn; lia)). reflexivity. Qed.
Lemma odd_attrib a : odd a -> attribChar a = [a].
Proof. intro O. unfold attribChar. rewrite !(odd_ne a) by (exact O || (cbn; lia)). now apply odd_cdata. Qed.
Lemma odd_escaping f s a : f a = [a] -> In a (chars s) -> In a (chars (escaping f s)).
Proof. intros F H. unfold escaping. rewrite chars_text. apply in_flat_map. exists a. split; [exact H|]. rewrite F. now left. Qed.
Lemma in_concat a l s : In s l -> In a (chars s) -> In a (chars (String.concat "" l)).
Proof.
  intros H Ha. induction l as [|x l IH]; [destruct H|]. rewrite concat_cons', chars_app. apply in_app_iff. destruct H as [->|H]; [now left|right; auto].
Qed.
Lemma odd_serialize a e : odd a -> occurs a e -> In a (chars (serialize e)).
Proof.
  intros O H. induction H as [tag attrs x ch H|tag attrs x ch k v H1 H2|tag attrs x ch k v H1 H2|tag attrs s ch H|tag attrs x ch e H1 H2 IH]; cbn [serialize]; rewrite !chars_app; repeat rewrite in_app_iff.
  - right. now left.
  - right. right. left. unfold attrsText. apply (in_concat a _ (" " ++ k ++ "=""" ++ escaping attribChar v ++ """")); [apply in_map_iff; exists (k, v); auto|].
    rewrite !chars_app. repeat rewrite in_app_iff. right. now left.
  - right. right. left. unfold attrsText. apply (in_concat a _ (" " ++ k ++ "=""" ++ escaping attribChar v ++ """")); [apply in_map_iff; exists (k, v); auto|].
    rewrite !chars_app. repeat rewrite in_app_iff. right. right. right. left. apply odd_escaping; [now apply odd_attrib|exact H2].
  - right. right. right. destruct s as [|b s]; [destruct H|]. cbn [orb]. destruct ch; rewrite !chars_app; repeat rewrite in_app_iff; right; left; left; (apply odd_escaping; [now apply odd_cdata|exact H]).
  - right. right. right. destruct ch as [|c ch]; [destruct H1|]. destruct x as [[|b s]|]; rewrite !chars_app; repeat rewrite in_app_iff; right; left; right; (apply (in_concat a _ (serialize e)); [now apply in_map|exact IH]).
Qed.
Lemma run_chars l : forall m p q, run m p l = Some q -> Forall (fun a => isXmlChar a = true) l.
Proof.
  induction l as [|a l IH]; intros m p q H; [constructor|]. cbn [run] in H. destruct (MXmlText.step m p a) as [[m' p']|] eqn:E; [|discriminate]. constructor; [|exact (IH _ _ _ H)].
  unfold MXmlText.step in E. destruct (isXmlChar a); [reflexivity|discriminate].
Qed.
Lemma in_lineEnds a l : a <> "013"%char -> a <> "010"%char -> In a l -> In a (lineEnds l).
Proof.
  intros N1 N2. remember (List.length l) as n eqn:E. assert (Le : List.length l <= n) by lia. clear E. revert l Le. induction n as [|n IH]; intros l Le H; [destruct l; [destruct H|cbn in Le; lia]|].
  destruct l as [|b l]; [destruct H|]. cbn [List.length] in Le. cbn [lineEnds]. destruct (Ascii.eqb_spec b "013") as [->|Nb].
  - destruct H as [H|H]; [now subst|]. right. destruct l as [|b l]; [destruct H|]. cbn [List.length] in Le. destruct (Ascii.eqb_spec b "010") as [->|_].
    + destruct H as [H|H]; [now subst|]. apply IH; [lia|exact H].
    + apply IH; [cbn [List.length]; lia|exact H].
  - destruct H as [->|H]; [now left|right]. apply IH; [lia|exact H].
Qed.
Lemma control_fails root a : control a -> occurs a root -> exists w, xmlPrettify root = Err w.
Proof.
  intros C H. assert (In a (chars (tostring root))) as Hi.
  { rewrite tostring_eq, chars_app. apply in_app_iff. right. apply odd_serialize; [now left|exact H]. }
  unfold xmlPrettify. cbv zeta. destruct (isAscii _); [|eauto].
  assert (parseDom (tostring root) = None) as ->; [|eauto]. unfold parseDom. destruct (run _ _ _) as [q|] eqn:E; [|reflexivity]. exfalso. apply run_chars in E.
  rewrite Forall_forall in E. unfold control in C. assert (In a (lineEnds (chars (tostring root)))) as Hl by (apply in_lineEnds; [intros ->; cbn in C; lia|intros ->; cbn in C; lia|exact Hi]).
  specialize (E a Hl). unfold isXmlChar, isXmlSpace in E. cbv zeta in E. rewrite !orb_true_iff, !andb_true_iff, !N.leb_le, !N.eqb_eq in E. lia.
Qed.
Lemma foreign_fails root a : outsideAscii a -> occurs a root -> xmlPrettify root = Err ValueError.
Proof.
  intros C H. assert (In a (chars (tostring root))) as Hi.
  { rewrite tostring_eq, chars_app. apply in_app_iff. right. apply odd_serialize; [now right|exact H]. }
  unfold xmlPrettify. cbv zeta. destruct (isAscii (tostring root)) eqn:E; [|reflexivity]. exfalso. unfold isAscii in E. rewrite forallb_forall in E. specialize (E a Hi).
  apply N.ltb_lt in E. unfold outsideAscii in C. lia.
Qed.
Section Refused.
  Context {T : Type} {NM : Num T} {X : NumText T}.
  Lemma refused zip unzip c f gz (l : plist T) root a : listWrite c f l = Ok root -> control a \/ outsideAscii a -> occurs a root ->
    exists w, writeFile (textFiles zip unzip) c f gz l = (Err w, []).
  Proof.
    intros W C H. assert (P : exists w, xmlPrettify root = Err w) by (destruct C as [C|C]; [exact (control_fails root a C H)|exists ValueError; exact (foreign_fails root a C H)]).
    destruct P as [w P]. unfold writeFile. rewrite W. cbn [pretty textFiles]. rewrite P. destruct gz; [destruct (duiker_on c)|]; eauto.
  Qed.
End Refused.
