From Coq Require Import Permutation.
From Verif Require Import SpecTools PBase PNode.
Local Open Scope string_scope.
Local Open Scope list_scope.

Section Reg.
  Context {T : Type} {N : Num T} {W : Type}.
  Variables (rd : string -> reader T W) (wr : string -> writer T W).

  (** Whoever serves is found, whatever stands before and after it. *)
  Lemma read_skip (fs : list (format T W)) path a rp w :
    (forall f, In f fs -> serves f CapRead (extensionOf path) = false) -> readWith fs path a rp w = (Ok LNone, w).
  Proof.
    induction fs as [|f fs IH]; intro H; [reflexivity|]. cbn [readWith].
    rewrite H by now left. apply IH. intros; apply H; now right.
  Qed.
  Lemma read_one (fs1 fs2 : list (format T W)) f path a rp w :
    (forall g, In g (fs1 ++ fs2) -> serves g CapRead (extensionOf path) = false) ->
    serves f CapRead (extensionOf path) = true ->
    readWith (fs1 ++ f :: fs2) path a rp w =
    match f_read f path a w with
    | (Err e, w') => (Err e, w')
    | (Ok [], w') => (Ok LNone, w')
    | (Ok ns, w') => (Ok (wrapNodes rp ns), w')
    end.
  Proof.
    intros H Hf. induction fs1 as [|g fs1 IH]; cbn [readWith app].
    - rewrite Hf. destruct (f_read f path a w) as [[[|n ns]|e] w']; try reflexivity.
      apply read_skip. exact H.
    - rewrite H by now left. apply IH. intros; apply H; now right.
  Qed.
  Lemma write_skip (fs : list (format T W)) c l path a w :
    (forall f, In f fs -> serves f (writeStyle (wa_style a)) (extensionOf path) = false) ->
    writeWith fs c l path a w = (Ok LNone, w).
  Proof.
    induction fs as [|f fs IH]; intro H; [reflexivity|]. cbn [writeWith].
    rewrite H by now left. apply IH. intros; apply H; now right.
  Qed.
  Lemma write_one (fs1 fs2 : list (format T W)) f c l path a w :
    (forall g, In g (fs1 ++ fs2) -> serves g (writeStyle (wa_style a)) (extensionOf path) = false) ->
    serves f (writeStyle (wa_style a)) (extensionOf path) = true ->
    writeWith (fs1 ++ f :: fs2) c l path a w =
    match formatWrite f c l path (writeStyle (wa_style a)) a w with
    | (Err e, w') => (Err e, w')
    | (Ok _, w') => (Ok LNone, w')
    end.
  Proof.
    intros H Hf. induction fs1 as [|g fs1 IH]; cbn [writeWith app].
    - rewrite Hf. destruct (formatWrite f c l path (writeStyle (wa_style a)) a w) as [[[|]|e] w']; try reflexivity.
      apply write_skip. exact H.
    - rewrite H by now left. apply IH. intros; apply H; now right.
  Qed.

  Lemma lower_idem_char a : lowerChar (lowerChar a) = lowerChar a.
  Proof. destruct a as [[] [] [] [] [] [] [] []]; reflexivity. Qed.
  Lemma chars_text l : chars (text l) = l.
  Proof. unfold chars, text. apply list_ascii_of_string_of_list_ascii. Qed.
  Lemma text_chars s : text (chars s) = s.
  Proof. unfold chars, text. apply string_of_list_ascii_of_string. Qed.
  Lemma lower_idem s : lower (lower s) = lower s.
  Proof. unfold lower. rewrite chars_text, map_map. f_equal. apply map_ext. apply lower_idem_char. Qed.

  (** What each shipped format serves, by cases on the extension. *)
  Definition goes (name : string) (cap : capability) (ext : string) : bool :=
    match (match cap with CapRead => readsExt ext | _ => writesExt cap ext end) with
    | Some n => String.eqb n name
    | None => false
    end.

  Ltac split_ext ext :=
    destruct (String.eqb_spec ext "spi1d") as [->|?]; [|
    destruct (String.eqb_spec ext "spi3d") as [->|?]; [|
    destruct (String.eqb_spec ext "spimtx") as [->|?]; [|
    destruct (String.eqb_spec ext "csp") as [->|?]; [|
    destruct (String.eqb_spec ext "clf") as [->|?]; [|
    destruct (String.eqb_spec ext "ctl") as [->|?]]]]]].

  Lemma shipped_serves name mk cap ext :
    In (name, mk) [("SPI", formatSPI (rd "SPI") (wr "SPI")); ("CSP", formatCSP (rd "CSP") (wr "CSP"));
                   ("CLF", formatCLF (rd "CLF") (wr "CLF")); ("CTL", formatCTL (rd "CTL") (wr "CTL"))] ->
    lower ext = ext -> serves mk cap ext = goes name cap ext.
  Proof.
    intros Hin Hl. split_ext ext.
    1-6: repeat destruct Hin as [Hin|Hin]; try contradiction; inversion Hin; subst; destruct cap; reflexivity.
    assert (G : goes name cap ext = false).
    { unfold goes, readsExt, writesExt. destruct cap; cbn [dget];
        rewrite ?(proj2 (String.eqb_neq ext _)) by assumption; reflexivity. }
    rewrite G. unfold serves.
    replace (existsb (String.eqb ext) (extensions mk)) with false; [reflexivity|]. symmetry.
    repeat destruct Hin as [Hin|Hin]; try contradiction; inversion Hin; subst;
      unfold extensions; cbn; rewrite ?(proj2 (String.eqb_neq ext _)) by assumption; reflexivity.
  Qed.

  Definition named : list (string * format T W) :=
    [("SPI", formatSPI (rd "SPI") (wr "SPI")); ("CSP", formatCSP (rd "CSP") (wr "CSP"));
     ("CLF", formatCLF (rd "CLF") (wr "CLF")); ("CTL", formatCTL (rd "CTL") (wr "CTL"))].
  Lemma named_shipped : map snd named = shipped rd wr.
  Proof. reflexivity. Qed.
  Lemma named_io name f : In (name, f) named -> f_read f = rd name /\ f_write f = wr name.
  Proof. intro H. repeat destruct H as [H|H]; try contradiction; inversion H; subst; split; reflexivity. Qed.

  Lemma ext_lower path : lower (extensionOf path) = extensionOf path.
  Proof. apply lower_idem. Qed.

  Lemma perm_named fs : Permutation fs (shipped rd wr) -> exists ns, Permutation ns named /\ fs = map snd ns.
  Proof.
    rewrite <- named_shipped. intro P. apply Permutation_map_inv in P.
    destruct P as [ns [E P]]. exists ns. split; [now apply Permutation_sym|assumption].
  Qed.

  Lemma named_nodup : NoDup (map fst named).
  Proof. repeat constructor; cbn; intuition discriminate. Qed.

  (** In any order, the formats other than [name] are on either side of it. *)
  Lemma find_named ns name : Permutation ns named -> In name (map fst named) ->
    exists l1 f l2, ns = l1 ++ (name, f) :: l2 /\ In (name, f) named /\ forall n g, In (n, g) (l1 ++ l2) -> n <> name /\ In (n, g) named.
  Proof.
    intros P Hn. apply in_map_iff in Hn. destruct Hn as [[n f] [En Hf]]. cbn in En. subst n.
    assert (Hi : In (name, f) ns) by (eapply Permutation_in; [apply Permutation_sym; exact P|exact Hf]).
    apply in_split in Hi. destruct Hi as [l1 [l2 ->]]. exists l1, f, l2. split; [reflexivity|]. split; [assumption|].
    intros n g Hg. split.
    - intros ->. assert (ND : NoDup (map fst (l1 ++ (name, f) :: l2))).
      { eapply Permutation_NoDup; [apply Permutation_sym, Permutation_map; exact P|exact named_nodup]. }
      rewrite map_app in ND. cbn [map fst] in ND. apply NoDup_remove_2 in ND. apply ND.
      rewrite <- map_app. change name with (fst (name, g)). now apply in_map.
    - eapply Permutation_in; [exact P|]. apply in_app_iff in Hg. apply in_app_iff. cbn. intuition auto.
  Qed.

  Lemma goes_names cap ext name : goes name cap ext = true -> In name (map fst named).
  Proof.
    unfold goes. intro H. assert (X : exists n, (match cap with CapRead => readsExt ext | _ => writesExt cap ext end) = Some n /\ n = name).
    { destruct (match cap with CapRead => readsExt ext | _ => writesExt cap ext end) as [n|]; [|discriminate].
      apply String.eqb_eq in H. eauto. }
    destruct X as [n [X ->]]. clear H. unfold readsExt, writesExt in X.
    destruct cap; cbn [dget] in X;
      repeat (match type of X with context [if String.eqb ext ?k then _ else _] => destruct (String.eqb ext k) end);
      try discriminate; inversion X; cbn; tauto.
  Qed.

  Theorem registry_read fs path a rp w : Permutation fs (shipped rd wr) ->
    readWith fs path a rp w =
    match readsExt (extensionOf path) with
    | None => (Ok LNone, w)
    | Some name =>
        match rd name path a w with
        | (Err e, w') => (Err e, w')
        | (Ok [], w') => (Ok LNone, w')
        | (Ok ns, w') => (Ok (wrapNodes rp ns), w')
        end
    end.
  Proof.
    intro P. destruct (perm_named fs P) as [ns [Pn ->]]. clear P.
    destruct (readsExt (extensionOf path)) as [name|] eqn:E.
    - assert (G : goes name CapRead (extensionOf path) = true) by (unfold goes; rewrite E; apply String.eqb_refl).
      destruct (find_named ns name Pn (goes_names _ _ _ G)) as [l1 [f [l2 [-> [Hf Ho]]]]].
      rewrite map_app. cbn [map snd]. rewrite read_one.
      + now rewrite (proj1 (named_io _ _ Hf)).
      + rewrite <- map_app. intros g Hg. apply in_map_iff in Hg. destruct Hg as [[n g'] [<- Hg]]. cbn [snd].
        destruct (Ho _ _ Hg) as [Hne Hin]. rewrite (shipped_serves n g' _ _ Hin (ext_lower path)).
        unfold goes. rewrite E. apply String.eqb_neq. congruence.
      + now rewrite (shipped_serves name f _ _ Hf (ext_lower path)).
    - apply read_skip. intros g Hg. apply in_map_iff in Hg. destruct Hg as [[n g'] [<- Hg]]. cbn [snd].
      assert (Hin : In (n, g') named) by (eapply Permutation_in; eauto).
      rewrite (shipped_serves n g' _ _ Hin (ext_lower path)). unfold goes. now rewrite E.
  Qed.

  Lemma style_not_read s : writeStyle s <> CapRead.
  Proof. unfold writeStyle. destruct (String.eqb s "1D"), (String.eqb s "3D"); discriminate. Qed.

  Theorem registry_write fs c l path a w : Permutation fs (shipped rd wr) ->
    writeWith fs c l path a w =
    match writesExt (writeStyle (wa_style a)) (extensionOf path) with
    | None => (Ok LNone, w)
    | Some name =>
        match sampleFor c l (writeStyle (wa_style a)) a with
        | Err e => (Err e, w)
        | Ok d => match wr name path d w with
                  | (Err e, w') => (Err e, w')
                  | (Ok _, w') => (Ok LNone, w')
                  end
        end
    end.
  Proof.
    intro P. destruct (perm_named fs P) as [ns [Pn ->]]. clear P.
    pose proof (style_not_read (wa_style a)) as Hs. set (style := writeStyle (wa_style a)) in *.
    assert (G : forall n, goes n style (extensionOf path) =
      match writesExt style (extensionOf path) with Some m => String.eqb m n | None => false end).
    { intro n. unfold goes. destruct style; [congruence| | |]; reflexivity. }
    destruct (writesExt style (extensionOf path)) as [name|] eqn:E.
    - assert (G1 : goes name style (extensionOf path) = true) by (rewrite G; apply String.eqb_refl).
      destruct (find_named ns name Pn (goes_names _ _ _ G1)) as [l1 [f [l2 [-> [Hf Ho]]]]].
      rewrite map_app. cbn [map snd]. rewrite write_one.
      + unfold formatWrite. fold style. destruct (sampleFor c l style a) as [d|e]; [|reflexivity].
        now rewrite (proj2 (named_io _ _ Hf)).
      + rewrite <- map_app. intros g Hg. apply in_map_iff in Hg. destruct Hg as [[n g'] [<- Hg]]. cbn [snd].
        destruct (Ho _ _ Hg) as [Hne Hin]. fold style. rewrite (shipped_serves n g' _ _ Hin (ext_lower path)), G.
        apply String.eqb_neq. congruence.
      + fold style. now rewrite (shipped_serves name f _ _ Hf (ext_lower path)).
    - apply write_skip. intros g Hg. apply in_map_iff in Hg. destruct Hg as [[n g'] [<- Hg]]. cbn [snd].
      assert (Hin : In (n, g') named) by (eapply Permutation_in; eauto).
      fold style. rewrite (shipped_serves n g' _ _ Hin (ext_lower path)), G. reflexivity.
  Qed.
End Reg.

(** * Extensions *)

Lemma rfindFrom_app c l1 l2 i last :
  rfindFrom c (l1 ++ l2) i last = rfindFrom c l2 (i + Z.of_nat (List.length l1)) (rfindFrom c l1 i last).
Proof.
  revert i last. induction l1 as [|x t IH]; intros i last; cbn [rfindFrom app List.length].
  - f_equal. lia.
  - rewrite IH. f_equal. lia.
Qed.
Lemma rfindFrom_none c l i last : Forall (fun a => a <> c) l -> rfindFrom c l i last = last.
Proof.
  intro H. revert i last. induction H as [|x t Hx _ IH]; intros i last; [reflexivity|]. cbn [rfindFrom].
  rewrite IH. destruct (Ascii.eqb_spec x c); [contradiction|reflexivity].
Qed.
Lemma chars_app s t : chars (s ++ t)%string = chars s ++ chars t.
Proof. induction s as [|a s IH]; [reflexivity|]. cbn. f_equal. exact IH. Qed.

Lemma rfindFrom_bound c l i last : (last < i)%Z -> (rfindFrom c l i last < i + Z.of_nat (List.length l))%Z.
Proof.
  revert i last. induction l as [|x t IH]; intros i last H; cbn [rfindFrom List.length]; [lia|].
  pose proof (IH (i + 1)%Z (if Ascii.eqb x c then i else last)) as X. destruct (Ascii.eqb x c); lia.
Qed.
Lemma rfindFrom_ge c l i last : (last < i)%Z -> (last <= rfindFrom c l i last)%Z.
Proof.
  revert i last. induction l as [|x t IH]; intros i last H; cbn [rfindFrom]; [lia|].
  pose proof (IH (i + 1)%Z (if Ascii.eqb x c then i else last)) as X. destruct (Ascii.eqb x c); lia.
Qed.
Lemma lower_chars s : chars (lower s) = map lowerChar (chars s).
Proof. unfold lower. now rewrite chars_text. Qed.

Lemma dropWhile_none {A} (p : A -> bool) l : Forall (fun a => p a = false) l -> dropWhile p l = l.
Proof. intro H. destruct H as [|x t Hx _]; [reflexivity|]. cbn. now rewrite Hx. Qed.
Lemma strip_none s : Forall (fun a => isSpace a = false) (chars s) -> strip s = s.
Proof.
  intro H. unfold strip. rewrite (dropWhile_none _ (chars s)) by assumption.
  rewrite (dropWhile_none _ (rev (chars s))) by now apply Forall_rev. rewrite rev_involutive. apply text_chars.
Qed.

Lemma splitext_dot p stem ext :
  rfind "/" p = (Z.of_nat (List.length (chars p)) - Z.of_nat (List.length (chars stem)) - 1 - Z.of_nat (List.length (chars ext)) - 1)%Z ->
  (exists pre, chars p = pre ++ chars stem ++ ["."%char] ++ chars ext) ->
  plainStem stem -> plainExt ext -> splitextExt p = ("." ++ ext)%string.
Proof.
  intros Hs [pre Hp] [Hst1 Hst2] Hext. unfold splitextExt.
  assert (Hl : List.length (chars p) = List.length pre + List.length (chars stem) + 1 + List.length (chars ext)).
  { rewrite Hp, !app_length. cbn. lia. }
  assert (Hd : rfind "." p = Z.of_nat (List.length pre + List.length (chars stem))).
  { unfold rfind. rewrite Hp, !rfindFrom_app. cbn [rfindFrom]. rewrite Ascii.eqb_refl.
    rewrite rfindFrom_none; [lia|]. eapply Forall_impl; [|exact Hext]. cbn. tauto. }
  rewrite Hs, Hd. rewrite Hl.
  replace (Z.of_nat (Datatypes.length pre + Datatypes.length (chars stem) + 1 + Datatypes.length (chars ext)) -
      Z.of_nat (Datatypes.length (chars stem)) - 1 - Z.of_nat (Datatypes.length (chars ext)) - 1)%Z with (Z.of_nat (List.length pre) - 1)%Z by lia.
  destruct (Z.ltb_spec (Z.of_nat (List.length pre) - 1) (Z.of_nat (List.length pre + List.length (chars stem)))); [|lia].
  replace (Z.of_nat (List.length pre) - 1 + 1)%Z with (Z.of_nat (List.length pre)) by lia. rewrite !Nat2Z.id.
  assert (E : slice (chars p) (List.length pre) (List.length pre + List.length (chars stem)) = chars stem).
  { unfold slice. rewrite Hp, skipn_app, skipn_all2, Nat.sub_diag by lia. cbn [app skipn].
    rewrite firstn_app. replace (List.length pre + List.length (chars stem) - List.length pre) with (List.length (chars stem)) by lia.
    rewrite Nat.sub_diag, firstn_O, app_nil_r. apply firstn_all. }
  rewrite E.
  replace (existsb (fun a => negb (Ascii.eqb a ".")) (chars stem)) with true.
  2:{ symmetry. apply existsb_exists. apply Exists_exists in Hst2. destruct Hst2 as [x [Hx Hne]]. exists x. split; [assumption|].
      destruct (Ascii.eqb_spec x "."%char); [contradiction|reflexivity]. }
  rewrite Hp, app_assoc, skipn_app, skipn_all2 by (rewrite app_length; lia).
  rewrite app_length, Nat.sub_diag. cbn [app skipn]. unfold text. cbn [string_of_list_ascii append]. f_equal. apply text_chars.
Qed.

Lemma ext_of_dot p ext : splitextExt p = ("." ++ ext)%string -> plainExt ext -> extensionOf p = lower ext.
Proof.
  intros E H. unfold extensionOf. rewrite E. cbn [append tailStr]. rewrite strip_none; [reflexivity|].
  eapply Forall_impl; [|exact H]. cbn. tauto.
Qed.

Theorem extension_of_file stem ext :
  plainStem stem -> plainExt ext -> extensionOf (stem ++ "." ++ ext)%string = lower ext.
Proof.
  intros Hs He. apply ext_of_dot; [|assumption]. apply splitext_dot with (stem := stem); try assumption.
  - unfold rfind. rewrite !chars_app, !app_length. cbn [chars list_ascii_of_string List.length app].
    rewrite rfindFrom_app, (rfindFrom_none _ (chars stem)) by exact (proj1 Hs). cbn [rfindFrom].
    change (Ascii.eqb "." "/") with false. rewrite rfindFrom_none; [unfold chars; lia|].
    eapply Forall_impl; [|exact He]. cbn. tauto.
  - exists []. now rewrite !chars_app.
Qed.

Theorem extension_of_path dir stem ext :
  plainStem stem -> plainExt ext -> extensionOf (dir ++ "/" ++ stem ++ "." ++ ext)%string = lower ext.
Proof.
  intros Hs He. apply ext_of_dot; [|assumption]. apply splitext_dot with (stem := stem); try assumption.
  - unfold rfind. rewrite !chars_app, !app_length. cbn [chars list_ascii_of_string List.length app].
    rewrite rfindFrom_app. cbn [rfindFrom]. rewrite Ascii.eqb_refl.
    rewrite rfindFrom_app, (rfindFrom_none _ (chars stem)) by exact (proj1 Hs). cbn [rfindFrom].
    change (Ascii.eqb "." "/") with false. rewrite rfindFrom_none; [unfold chars; lia|].
    eapply Forall_impl; [|exact He]. cbn. tauto.
  - exists (chars dir ++ ["/"%char]). rewrite !chars_app, <- app_assoc. reflexivity.
Qed.
