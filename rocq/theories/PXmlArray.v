(** Proofs about the text of Array and IndexMap elements. *)
From Coq Require Import List Arith Lia NArith Nnat ZArith Ascii String Bool.
From Verif Require Import PBase PRegistry PNumText MXml.
Import ListNotations.
Local Open Scope list_scope.

Lemma Ok_eq {A} (a b : A) : Ok a = Ok b -> a = b.
Proof. now inversion 1. Qed.
Lemma mapM_map {A B C} (f : A -> B) (g : B -> res C) l : mapM g (map f l) = mapM (fun x => g (f x)) l.
Proof. induction l as [|x l IH]; [reflexivity|]. cbn. destruct (g (f x)); [cbn|reflexivity]. now rewrite IH. Qed.
Lemma mapM_cons {A B} (f : A -> res B) x l : mapM f (x :: l) = let* y := f x in let* ys := mapM f l in Ok (y :: ys).
Proof. reflexivity. Qed.

Definition chunks {A} (cols n : nat) (l : list A) : list (list A) :=
  map (fun i => slice l (i * cols) ((i + 1) * cols)) (seq 0 n).
Lemma slice_skip {A} (l : list A) a b k : slice l (k + a) (k + b) = slice (skipn k l) a b.
Proof.
  unfold slice. rewrite skipn_skipn. replace (k + b - (k + a))%nat with (b - a)%nat by lia.
  now rewrite (Nat.add_comm k a).
Qed.
Lemma chunks_S {A} cols n (l : list A) : chunks cols (S n) l = firstn cols l :: chunks cols n (skipn cols l).
Proof.
  unfold chunks. cbn [seq map]. f_equal.
  - unfold slice. cbn. now rewrite Nat.add_0_r, Nat.sub_0_r.
  - rewrite <- seq_shift, map_map. apply map_ext. intro i. rewrite <- slice_skip. f_equal; lia.
Qed.
Lemma chunks_concat {A} cols n (l : list A) : List.concat (chunks cols n l) = firstn (n * cols) l.
Proof.
  revert l. induction n as [|n IH]; intro l; [reflexivity|]. rewrite chunks_S. cbn [List.concat]. rewrite IH.
  cbn [Nat.mul]. rewrite firstn_skipn_comm. rewrite <- (firstn_skipn cols (firstn (cols + n * cols) l)) at 2.
  now rewrite firstn_firstn, Nat.min_l by lia.
Qed.

(** The words a piece of text contributes when followed by a space. *)
Definition splits (s : string) (ws : list string) : Prop :=
  forall r, startsBlank r -> splitFrom [] (chars s ++ r) = ws ++ splitFrom [] r.

Definition nl : list ascii := ["010"%char].
Lemma fold_rows rows acc :
  chars (fold_left (fun acc r => (acc ++ r ++ text nl)%string) rows acc) =
  chars acc ++ List.concat (map (fun r => chars r ++ nl) rows).
Proof.
  revert acc. induction rows as [|r rows IH]; intro acc; cbn [fold_left map List.concat]; [now rewrite app_nil_r|].
  rewrite IH, !chars_app, chars_text, <- !app_assoc. reflexivity.
Qed.
Lemma splits_rows rows wss r : Forall2 splits rows wss -> startsBlank r ->
  splitFrom [] (List.concat (map (fun r => chars r ++ nl) rows) ++ r) = List.concat wss ++ splitFrom [] r.
Proof.
  intros H B. induction H as [|s ws rows wss Hs H IH]; [reflexivity|].
  cbn [map List.concat]. rewrite <- !app_assoc. rewrite Hs by reflexivity. f_equal.
  cbn [nl app]. rewrite splitFrom_blank by reflexivity. exact IH.
Qed.

Section Arrays.
  Context {T : Type} {NM : Num T} {X : NumText T} {OK : TextOk T}.

  Lemma rowOf_splits w (toText : T -> res string) sample s :
    (forall x t, toText x = Ok t -> word t) -> rowOf w toText sample = Ok s ->
    exists ws, mapM toText sample = Ok ws /\ splits s ws.
  Proof.
    intros W E. unfold rowOf in E. destruct (mapM toText sample) as [ws|] eqn:M; [|discriminate]. cbn [bind] in E.
    apply Ok_eq in E. subst s. exists ws. split; [reflexivity|]. intros r B. apply splitFrom_row; [|exact B].
    clear - W M. revert ws M. induction sample as [|x t IH]; intros ws M; cbn [mapM] in M.
    - apply Ok_eq in M. subst. constructor.
    - destruct (toText x) as [y|] eqn:Y; [|discriminate]. cbn [bind] in M. destruct (mapM toText t) as [ys|]; [|discriminate].
      cbn [bind] in M. apply Ok_eq in M. subst. constructor; eauto.
  Qed.

  (** One written word, read back. *)
  Definition effective (enc : string) : string := if inList enc knownEncodings then enc else "string"%string.
  Definition keepValue (raw : bool) (enc : string) (x : T) : T :=
    if raw || String.eqb enc "integer16bit" then nf16 x
    else if String.eqb enc "integer32bit" then nf32 x
    else if String.eqb enc "integer64bit" then x
    else if String.eqb enc "hex16bit" then nf16 x
    else if String.eqb enc "hex32bit" then nf32 x
    else if String.eqb enc "hex64bit" then x
    else nf32 (tround (tfixed 9 x)).
  Definition readWord (raw : bool) (enc s : string) : res T :=
    let '(dt, cast) := readsAs raw enc in let* v := cast s in Ok (storeAs dt v).

  Lemma parseUInt_text bits n : (n < 2 ^ bits)%N -> parseUInt bits (zText (Z.of_N n)) = Ok n.
  Proof.
    intro H. unfold parseUInt. rewrite parseInt_zText. cbn [bind].
    replace (0 <=? Z.of_N n)%Z with true by (symmetry; apply Z.leb_le; lia).
    replace (Z.of_N n <? Z.of_N (2 ^ bits))%Z with true by (symmetry; apply Z.ltb_lt; lia).
    cbn [andb]. now rewrite N2Z.id.
  Qed.
  Lemma hbits_small (x : T) : (Z.to_N (nhbits x) < 2 ^ 16)%N.
  Proof. pose proof (to_hbits x) as H. change (2 ^ 16)%N with (Z.to_N 65536). lia. Qed.
  Lemma parseUInt_hbits (x : T) : parseUInt 16 (zText (nhbits x)) = Ok (Z.to_N (nhbits x)).
  Proof.
    rewrite <- (parseUInt_text 16 (Z.to_N (nhbits x))) by apply hbits_small. f_equal. f_equal.
    pose proof (to_hbits x). lia.
  Qed.
  Lemma half_back (x : T) : nhalf (Z.of_N (Z.to_N (nhbits x))) = nf16 x.
  Proof. rewrite Z2N.id by (pose proof (to_hbits x); lia). apply to_half. Qed.

  Lemma read_uint16 (x : T) : (let* n := parseUInt 16 (zText (nhbits x)) in Ok (nhalf (Z.of_N n))) = Ok (nf16 x).
  Proof. rewrite parseUInt_hbits. cbn [bind]. now rewrite half_back. Qed.
  Lemma read_uint32 (x : T) : (let* n := parseUInt 32 (zText (Z.of_N (tbits32 x))) in Ok (tof32 n)) = Ok (nf32 x).
  Proof. rewrite parseUInt_text by apply to_bits32. cbn [bind]. now rewrite to_32. Qed.
  Lemma read_uint64 (x : T) : (let* n := parseUInt 64 (zText (Z.of_N (tbits64 x))) in Ok (tof64 n)) = Ok x.
  Proof. rewrite parseUInt_text by apply to_bits64. cbn [bind]. now rewrite to_64. Qed.
  Lemma read_hex16 (x : T) : (let* n := parseHex 4 (text (hexDigits 4 (Z.to_N (nhbits x)))) in Ok (nhalf (Z.of_N n))) = Ok (nf16 x).
  Proof.
    fold (hexText 4 (Z.to_N (nhbits x))). rewrite parseHex_hexText; [|reflexivity|exact (hbits_small x)].
    cbn [bind]. now rewrite half_back.
  Qed.
  Lemma read_hex32 (x : T) : (let* n := parseHex 8 (text (hexDigits 8 (tbits32 x))) in Ok (tof32 n)) = Ok (nf32 x).
  Proof.
    fold (hexText 8 (tbits32 x)). rewrite parseHex_hexText; [|reflexivity|exact (to_bits32 x)].
    cbn [bind]. now rewrite to_32.
  Qed.
  Lemma read_hex64 (x : T) : (let* n := parseHex 16 (text (hexDigits 16 (tbits64 x))) in Ok (tof64 n)) = Ok x.
  Proof.
    fold (hexText 16 (tbits64 x)). rewrite parseHex_hexText; [|reflexivity|exact (to_bits64 x)].
    cbn [bind]. now rewrite to_64.
  Qed.

  (** The word writer an array uses, once the feature check has passed. *)
  Definition toWord (raw : bool) (enc : string) : T -> res string :=
    if raw || String.eqb enc "integer16bit" then uint16Word
    else if String.eqb enc "integer32bit" then uint32Word
    else if String.eqb enc "integer64bit" then uint64Word
    else if String.eqb enc "hex16bit" then hex16Word
    else if String.eqb enc "hex32bit" then hex32Word
    else if String.eqb enc "hex64bit" then hex64Word
    else decimalWord.
  Definition wordWidth (raw : bool) (enc : string) : nat :=
    if raw || String.eqb enc "integer16bit" then 15
    else if String.eqb enc "integer32bit" then 15
    else if String.eqb enc "integer64bit" then 15
    else if String.eqb enc "hex16bit" then 15
    else if String.eqb enc "hex32bit" then 15
    else if String.eqb enc "hex64bit" then 16
    else 15.
  Lemma rowText_form c a sample :
    rowText c a sample =
    let* _ := if a_int a then mapM pyint sample else Ok [] in
    if String.eqb (a_enc a) "string" || duiker_on c then
      rowOf (wordWidth (a_raw a) (a_enc a)) (toWord (a_raw a) (a_enc a)) sample
    else Err UnsupportedExtensionError.
  Proof.
    unfold rowText, toWord, wordWidth. destruct (if a_int a then _ else _); [|reflexivity]. cbn [bind].
    destruct (String.eqb_spec (a_enc a) "string") as [E|E]; cbn [negb orb].
    - rewrite E. destruct (a_raw a); reflexivity.
    - destruct (duiker_on c); [|reflexivity]. destruct (a_raw a || _); [reflexivity|].
      repeat match goal with |- context [if String.eqb ?a ?b then _ else _] => destruct (String.eqb a b); [reflexivity|] end.
      reflexivity.
  Qed.

  Lemma toWord_word raw enc x t : toWord raw enc x = Ok t -> word t.
  Proof.
    unfold toWord. repeat match goal with |- context [if ?b then _ else _] => destruct b end;
      unfold uint16Word, uint32Word, uint64Word, hex16Word, hex32Word, hex64Word, decimalWord; intro E.
    all: try (destruct (tover32 x); [discriminate|]).
    all: apply Ok_eq in E; subst t.
    all: try apply zText_word; try apply word_formatFixed.
    all: apply hexText_word; discriminate.
  Qed.
  Lemma effective_eqb enc k : In k knownEncodings -> String.eqb (effective enc) k = String.eqb enc k.
  Proof.
    intro H. unfold effective. destruct (inList enc knownEncodings) eqn:E; [reflexivity|].
    destruct (String.eqb_spec enc k) as [->|].
    - unfold inList in E. assert (existsb (String.eqb k) knownEncodings = true); [|congruence].
      apply existsb_exists. exists k. split; [exact H|apply String.eqb_refl].
    - cbn in H. repeat destruct H as [<-|H]; try reflexivity. contradiction.
  Qed.
  Lemma toWord_read raw enc x t : toWord raw enc x = Ok t -> readWord raw (effective enc) t = Ok (keepValue raw enc x).
  Proof.
    unfold toWord, readWord, readsAs, keepValue.
    rewrite !effective_eqb by (cbn; auto 10).
    destruct (raw || String.eqb enc "integer16bit"); [intros [= <-]; unfold bind at 1; rewrite read_uint16; cbn [storeAs]; now rewrite to_f16|].
    destruct (String.eqb enc "integer32bit"); [intros [= <-]; unfold bind at 1; rewrite read_uint32; cbn [storeAs]; now rewrite to_f32|].
    destruct (String.eqb enc "integer64bit"); [intros [= <-]; unfold bind at 1; now rewrite read_uint64|].
    destruct (String.eqb enc "hex16bit"); [intro E; apply Ok_eq in E; subst t; cbv beta iota; rewrite read_hex16; cbn [bind storeAs]; now rewrite to_f16|].
    destruct (String.eqb enc "hex32bit");
      [unfold hex32Word; destruct (tover32 x); [discriminate|]; intro E; apply Ok_eq in E; subst t; cbv beta iota; rewrite read_hex32; cbn [bind storeAs]; now rewrite to_f32|].
    destruct (String.eqb enc "hex64bit"); [intro E; apply Ok_eq in E; subst t; cbv beta iota; now rewrite read_hex64|].
    intros [= <-]. rewrite parse_formatFixed. reflexivity.
  Qed.

  Lemma toWords_read raw enc sample ws : mapM (toWord raw enc) sample = Ok ws ->
    mapM (readWord raw (effective enc)) ws = Ok (map (keepValue raw enc) sample).
  Proof.
    revert ws. induction sample as [|x t IH]; intros ws E; cbn [mapM] in E.
    - apply Ok_eq in E. subst. reflexivity.
    - destruct (toWord raw enc x) as [y|] eqn:Y; [|discriminate]. cbn [bind] in E.
      destruct (mapM (toWord raw enc) t) as [ys|]; [|discriminate]. cbn [bind] in E. apply Ok_eq in E. subst ws.
      rewrite mapM_cons, (toWord_read _ _ _ _ Y). cbn [bind]. now rewrite (IH ys eq_refl).
  Qed.

  Lemma rows_read c a chs rows : mapM (rowText c a) chs = Ok rows ->
    exists wss, Forall2 splits rows wss /\
      mapM (readWord (a_raw a) (effective (a_enc a))) (List.concat wss) = Ok (map (keepValue (a_raw a) (a_enc a)) (List.concat chs)).
  Proof.
    revert rows. induction chs as [|s t IH]; intros rows E; cbn [mapM] in E.
    - apply Ok_eq in E. subst. exists []. split; [constructor|reflexivity].
    - destruct (rowText c a s) as [y|] eqn:Y; [|discriminate]. cbn [bind] in E.
      destruct (mapM (rowText c a) t) as [ys|]; [|discriminate]. cbn [bind] in E. apply Ok_eq in E. subst rows.
      destruct (IH ys eq_refl) as (wss & F & R). rewrite rowText_form in Y.
      destruct (if a_int a then _ else _); [|discriminate]. cbn [bind] in Y.
      destruct (_ || _); [|discriminate].
      destruct (rowOf_splits _ _ _ _ (toWord_word _ _) Y) as (ws & M & S).
      exists (ws :: wss). split; [now constructor|]. cbn [List.concat].
      rewrite mapM_app, (toWords_read _ _ _ _ M). cbn [bind]. rewrite R. cbn [bind]. now rewrite map_app.
  Qed.

  Lemma parseDim_natText n : parseDim (natText n) = Ok n.
  Proof.
    unfold parseDim. rewrite parseInt_natText. cbn [bind].
    replace (Z.of_nat n <? 0)%Z with false by (symmetry; apply Z.ltb_ge; lia). now rewrite Nat2Z.id.
  Qed.
  Lemma dims_read dims : mapM parseDim (split (join " " (map natText dims))) = Ok dims.
  Proof.
    rewrite split_join.
    - rewrite mapM_map. rewrite (mapM_Ok _ (fun n => n)), map_id by (intros; apply parseDim_natText). reflexivity.
    - apply Forall_forall. intros w H. apply in_map_iff in H as [n [<- _]]. apply natText_word.
  Qed.

  Definition keptDt (raw : bool) (enc : string) : dtype := fst (readsAs raw enc).

  (** What reading makes of an array written in the encoding [enc]. *)
  Definition keptArray (a : array T) (n cols : nat) : array T :=
    let enc := match n with O => "string"%string | _ => effective (a_enc a) end in
    {| a_dims := a_dims a; a_vals := map (keepValue (a_raw a) (a_enc a)) (firstn (n * cols) (a_vals a));
       a_dt := keptDt (a_raw a) enc; a_raw := a_raw a; a_int := false; a_enc := enc |}.

  Lemma pydiv_ok a b n : pydiv a b = Ok n -> b <> 0%nat /\ n = (a / b)%nat.
  Proof. unfold pydiv. destruct b; [discriminate|]. intros [= <-]. auto. Qed.

  Lemma arrayWrite_inv c a e : arrayWrite c a = Ok e ->
    exists cols n rows, arrayColumns (a_dims a) = Ok cols /\ cols <> 0%nat /\ n = (List.length (a_vals a) / cols)%nat /\
      mapM (rowText c a) (chunks cols n (a_vals a)) = Ok rows /\
      e = XElem "Array" (("dim"%string, join " " (map natText (a_dims a))) ::
                         match n with O => [] | _ => if inList (a_enc a) knownEncodings then [("floatEncoding"%string, a_enc a)] else [] end)
            (Some (fold_left (fun acc r => (acc ++ r ++ text nl)%string) rows (text nl) ++ text ["009"%char; "009"%char])%string) [].
  Proof.
    intro E. unfold arrayWrite in E. destruct (arrayColumns (a_dims a)) as [cols|]; [|discriminate]. cbn [bind] in E.
    destruct (pydiv (List.length (a_vals a)) cols) as [n|] eqn:P; [|discriminate]. cbn [bind] in E.
    apply pydiv_ok in P as [Nz ->]. destruct (mapM _ _) as [rows|] eqn:M; [|discriminate]. cbn [bind] in E.
    apply Ok_eq in E. exists cols, (List.length (a_vals a) / cols)%nat, rows. repeat split; try assumption.
    - unfold chunks. rewrite mapM_map. exact M.
    - now rewrite <- E.
  Qed.

  Lemma text_body_split rows wss : Forall2 splits rows wss ->
    split (fold_left (fun acc r => (acc ++ r ++ text nl)%string) rows (text nl) ++ text ["009"%char; "009"%char])%string
    = List.concat wss.
  Proof.
    intro F. unfold split. rewrite chars_app, fold_rows, !chars_text. rewrite <- app_assoc.
    unfold nl at 1. cbn [app]. rewrite splitFrom_blank by reflexivity.
    rewrite (splits_rows rows wss) by (assumption || reflexivity). cbn. apply app_nil_r.
  Qed.

  Lemma readWord_form raw enc : forall ws vs, mapM (readWord raw enc) ws = Ok vs ->
    (let '(dt, cast) := @readsAs T NM X raw enc in
     mapM (fun s => let* v := cast s in Ok (storeAs dt v)) ws) = Ok vs.
  Proof. intros ws vs. unfold readWord. destruct (readsAs raw enc) as [dt cast]. trivial. Qed.

  Lemma array_back c a e : arrayWrite c a = Ok e ->
    exists cols, arrayColumns (a_dims a) = Ok cols /\ cols <> 0%nat /\
      arrayRead (emptyArray (a_raw a)) e = Ok (keptArray a (List.length (a_vals a) / cols) cols).
  Proof.
    intro E. destruct (arrayWrite_inv _ _ _ E) as (cols & n & rows & Hc & Nz & -> & M & ->).
    exists cols. split; [exact Hc|]. split; [exact Nz|]. set (n := (List.length (a_vals a) / cols)%nat) in *.
    destruct (rows_read _ _ _ _ M) as (wss & F & R). rewrite chunks_concat in R.
    unfold arrayRead. cbn [x_attrib x_text dget]. cbn [String.eqb Ascii.eqb Bool.eqb]. rewrite dims_read. cbn [bind].
    set (enc := match dget _ "floatEncoding" with Some v => v | None => _ end).
    assert (He : enc = match n with O => "string"%string | _ => effective (a_enc a) end).
    { subst enc. unfold effective. destruct n; [reflexivity|]. destruct (inList (a_enc a) knownEncodings); reflexivity. }
    assert (R' : mapM (readWord (a_raw a) enc) (List.concat wss) = Ok (map (keepValue (a_raw a) (a_enc a)) (firstn (n * cols) (a_vals a)))).
    { rewrite He. destruct n as [|n']; [|exact R]. cbn in M. apply Ok_eq in M. subst rows. inversion F; subst. reflexivity. }
    clearbody enc. pose proof (readWord_form _ _ _ _ R') as K. cbn [emptyArray a_raw a_int mkArray].
    unfold keptArray, keptDt. rewrite <- He.
    destruct (readsAs (a_raw a) enc) as [dt cast]. rewrite (text_body_split _ _ F). rewrite K. reflexivity.
  Qed.

  (** When writing succeeds. *)
  Definition arrayWritable (c : Z) (a : array T) : Prop :=
    exists cols, arrayColumns (a_dims a) = Ok cols /\ cols <> 0%nat /\
      let kept := firstn (List.length (a_vals a) / cols * cols) (a_vals a) in
      (kept <> [] -> a_enc a = "string"%string \/ duiker_on c = true) /\
      (a_int a = true -> forall x, In x kept -> is_ok (pyint x)) /\
      (a_raw a = false -> a_enc a = "hex32bit"%string -> forall x, In x kept -> tover32 x = false).

  Lemma mapM_ok_iff {A B} (f : A -> res B) l : is_ok (mapM f l) <-> forall x, In x l -> is_ok (f x).
  Proof.
    induction l as [|x l IH]; cbn [mapM]; [split; [intros _ y []|intros _; eexists; reflexivity]|]. split.
    - intros [ys E]. destruct (f x) as [y|] eqn:Ex; [|discriminate]. cbn [bind] in E. destruct (mapM f l) as [t|]; [|discriminate].
      intros z [<-|H]; [rewrite Ex; eexists; reflexivity|]. apply IH; [eexists; reflexivity|exact H].
    - intro H. destruct (H x (or_introl eq_refl)) as [y ->]. cbn [bind].
      destruct (proj2 IH (fun z Hz => H z (or_intror Hz))) as [ys ->]. cbn [bind]. eexists. reflexivity.
  Qed.
  Lemma toWord_ok raw enc x : is_ok (toWord raw enc x) <-> (raw = false -> enc = "hex32bit"%string -> tover32 x = false).
  Proof.
    unfold toWord. destruct raw; cbn [orb]; [split; [discriminate|intros _; eexists; reflexivity]|].
    destruct (String.eqb_spec enc "hex32bit") as [->|N].
    - cbn [String.eqb Ascii.eqb Bool.eqb]. unfold hex32Word. destruct (tover32 x); split.
      + intros [y E]. discriminate.
      + intro H. specialize (H eq_refl eq_refl). discriminate.
      + reflexivity.
      + intros _. eexists. reflexivity.
    - split; [congruence|]. intros _.
      repeat match goal with |- context [if ?b then _ else _] => destruct b end; eexists; reflexivity.
  Qed.
  Lemma rowText_ok c a sample :
    is_ok (rowText c a sample) <->
    (a_int a = true -> forall x, In x sample -> is_ok (pyint x)) /\ (a_enc a = "string"%string \/ duiker_on c = true) /\
    (forall x, In x sample -> is_ok (toWord (a_raw a) (a_enc a) x)).
  Proof.
    rewrite rowText_form.
    assert (I : is_ok (if a_int a then mapM pyint sample else Ok []) <-> (a_int a = true -> forall x, In x sample -> is_ok (pyint x))).
    { destruct (a_int a); [rewrite mapM_ok_iff; split; auto|]. split; [discriminate|intros _; eexists; reflexivity]. }
    assert (D : (String.eqb (a_enc a) "string" || duiker_on c = true) <-> (a_enc a = "string"%string \/ duiker_on c = true))
      by now rewrite orb_true_iff, String.eqb_eq.
    assert (W : is_ok (rowOf (wordWidth (a_raw a) (a_enc a)) (toWord (a_raw a) (a_enc a)) sample) <->
                forall x, In x sample -> is_ok (toWord (a_raw a) (a_enc a) x)).
    { rewrite <- mapM_ok_iff. unfold rowOf. destruct (mapM (toWord (a_raw a) (a_enc a)) sample); cbn [bind].
      - split; intros _; eexists; reflexivity.
      - split; intros [y F]; discriminate. }
    rewrite <- I, <- D, <- W. destruct (if a_int a then _ else _) as [zs|]; cbn [bind].
    - destruct (_ || _); [|split; [intros [y F]; discriminate|intros (_ & F & _); discriminate]].
      split; [intro H; repeat split; [eexists; reflexivity|exact H]|tauto].
    - split; [intros [y F]; discriminate|intros ([y F] & _); discriminate].
  Qed.

  Lemma chunks_none {A} cols n (l : list A) : n <> 0%nat -> cols <> 0%nat -> (n * cols <= List.length l)%nat -> firstn (n * cols) l <> [].
  Proof.
    intros Hn Hc H E. apply (f_equal (@List.length A)) in E. rewrite firstn_length_le in E by exact H. cbn in E. nia.
  Qed.
  Lemma arrayWrite_ok c a : is_ok (arrayWrite c a) <-> arrayWritable c a.
  Proof.
    unfold arrayWrite, arrayWritable. destruct (arrayColumns (a_dims a)) as [cols|e]; cbn [bind];
      [|split; [intros [y F]; discriminate|intros (k & F & _); discriminate]].
    destruct (Nat.eq_dec cols 0) as [->|Nz].
    { split; [intros [y F]; discriminate|]. intros (k & [= <-] & K & _). contradiction. }
    replace (pydiv (List.length (a_vals a)) cols) with (Ok (List.length (a_vals a) / cols)%nat) by (destruct cols; [contradiction|reflexivity]).
    cbn [bind]. set (n := (List.length (a_vals a) / cols)%nat).
    assert (Hn : (n * cols <= List.length (a_vals a))%nat) by (subst n; rewrite Nat.mul_comm; apply Nat.mul_div_le; exact Nz).
    match goal with |- context [mapM ?f (seq 0 n)] => replace (mapM f (seq 0 n)) with (mapM (rowText c a) (chunks cols n (a_vals a)))
      by (unfold chunks; apply mapM_map) end.
    pose proof (mapM_ok_iff (rowText c a) (chunks cols n (a_vals a))) as R.
    assert (Q : is_ok (mapM (rowText c a) (chunks cols n (a_vals a))) <->
                (firstn (n * cols) (a_vals a) <> [] -> a_enc a = "string"%string \/ duiker_on c = true) /\
                (a_int a = true -> forall x, In x (firstn (n * cols) (a_vals a)) -> is_ok (pyint x)) /\
                (a_raw a = false -> a_enc a = "hex32bit"%string -> forall x, In x (firstn (n * cols) (a_vals a)) -> tover32 x = false)).
    { rewrite R. setoid_rewrite rowText_ok. rewrite <- (chunks_concat cols n). split.
      - intro H. repeat split.
        + destruct (chunks cols n (a_vals a)) as [|s t]; [intro F; now contradiction F|]. intros _. apply (H s (or_introl eq_refl)).
        + intros I x Hx. apply in_concat in Hx as (s & Hs & Hx). now apply (H s Hs).
        + intros Hr He x Hx. apply in_concat in Hx as (s & Hs & Hx). destruct (H s Hs) as (_ & _ & W).
          specialize (W x Hx). rewrite toWord_ok in W. auto.
      - intros (D & I & O) s Hs. repeat split.
        + intros Hi x Hx. apply I; [exact Hi|]. apply in_concat. eauto.
        + apply D. rewrite chunks_concat. destruct n as [|n'] eqn:En; [contradiction|]. apply chunks_none; [discriminate|exact Nz|exact Hn].
        + intros x Hx. apply toWord_ok. intros Hr He. apply (O Hr He). apply in_concat. eauto. }
    destruct (mapM (rowText c a) (chunks cols n (a_vals a))) as [rows|e]; cbn [bind].
    - split; [|intros _; eexists; reflexivity]. intros _. exists cols. split; [reflexivity|]. split; [exact Nz|]. apply Q. eexists. reflexivity.
    - split; [intros [y F]; discriminate|]. intros (k & E & _ & W). apply Ok_eq in E. subst k.
      destruct (proj2 Q W) as [y F]. discriminate.
  Qed.

  (* ------------------------------------------------------------------ *)
  (** * IndexMap *)

  Definition noAt (l : list ascii) : Prop := Forall (fun a => Ascii.eqb a "@" = false) l.
  Lemma noAt_digits l : digits l -> noAt l.
  Proof.
    apply Forall_impl. intros a H. destruct (Ascii.eqb_spec a "@") as [->|]; [discriminate|reflexivity].
  Qed.
  Lemma noAt_literal neg ip point fp e : digits ip -> digits fp -> expOk e -> noAt (literal neg ip point fp e).
  Proof.
    intros Di Df De. unfold literal. apply Forall_app. split; [destruct neg; repeat constructor|].
    apply Forall_app. split; [now apply noAt_digits|]. apply Forall_app. split.
    - destruct point; [|constructor]. constructor; [reflexivity|now apply noAt_digits].
    - destruct e as [[en ed]|]; [|constructor]. destruct De as [De _]. cbn [expPart]. constructor; [reflexivity|].
      constructor; [now destruct en|now apply noAt_digits].
  Qed.
  Lemma noAt_sig n : noAt (chars (sigText n)).
  Proof.
    destruct n as [neg m k|neg|].
    - destruct (sigText_literal neg m k) as (ip & point & fp & e & -> & Di & Ni & Df & De & S). rewrite chars_text. now apply noAt_literal.
    - destruct neg; repeat constructor.
    - repeat constructor.
  Qed.
  Lemma zText_literal z : zText z = text (literal (z <? 0)%Z (decimal (Z.abs_N z)) false [] None).
  Proof.
    unfold zText, literal. destruct (z <? 0)%Z; cbn [signText chars list_ascii_of_string app text string_of_list_ascii expPart].
    - f_equal. now rewrite app_nil_r.
    - now rewrite app_nil_r.
  Qed.
  Lemma noAt_z z : noAt (chars (zText z)).
  Proof. rewrite zText_literal, chars_text. apply noAt_literal; [apply decimal_digits|constructor|exact Logic.I]. Qed.
  (** [float(str(n))] of an integer. *)
  Definition zNumeral (z : Z) : numeral := NumDec (z <? 0)%Z (Z.abs_N z) 0.
  Lemma parse_zText z : parseFloat (zText z) = Ok (tround (zNumeral z) : T).
  Proof.
    unfold parseFloat. rewrite zText_literal, parse_literal by first [apply decimal_digits|apply decimal_nonempty|constructor].
    rewrite app_nil_r, decimal_read. reflexivity.
  Qed.

  Lemma splitAt_first cur l r : noAt l -> splitAtFrom "@" cur (l ++ "@"%char :: r) = text (rev cur ++ l) :: splitAtFrom "@" [] r.
  Proof.
    intro H. revert cur. induction H as [|a l Ha H IH]; intro cur; cbn [app splitAtFrom].
    - rewrite Ascii.eqb_refl. now rewrite app_nil_r.
    - rewrite Ha, IH. cbn [rev]. now rewrite <- app_assoc.
  Qed.
  Lemma splitAt_last cur l : noAt l -> splitAtFrom "@" cur l = [text (rev cur ++ l)].
  Proof.
    intro H. revert cur. induction H as [|a l Ha H IH]; intro cur; cbn [app splitAtFrom].
    - now rewrite app_nil_r.
    - rewrite Ha, IH. cbn [rev]. now rewrite <- app_assoc.
  Qed.
  Lemma splitAt_pair s t : noAt (chars s) -> noAt (chars t) -> splitAt "@" (s ++ "@" ++ t) = [s; t].
  Proof.
    intros Hs Ht. unfold splitAt. rewrite !chars_app. change (chars "@") with ["@"%char]. cbn [app].
    rewrite splitAt_first, splitAt_last by assumption. cbn [rev app]. now rewrite !text_chars.
  Qed.

  Definition keepStr (x : T) : T := tround (tsig12 x).
  Definition keepInt (x : T) : T := tround (zNumeral (ntrunc x)).
  Definition keptMap (m : imap T) : imap T :=
    {| im_dim := im_dim m; im_in := map keepStr (im_in m); im_out := map keepInt (im_out m) |}.

  Definition pairText (a b : T) : string := (formatStr a ++ "@" ++ zText (ntrunc b))%string.
  Lemma pairText_word a b : word (pairText a b).
  Proof.
    split.
    - unfold pairText. destruct (word_formatStr a) as [Ne _]. destruct (formatStr a); [contradiction|discriminate].
    - unfold pairText. rewrite !chars_app. apply Forall_app. split; [apply word_formatStr|]. apply Forall_app.
      split; [repeat constructor|apply zText_word].
  Qed.
  Lemma pyint_val (x : T) z : pyint x = Ok z -> z = ntrunc x.
  Proof. unfold pyint. destruct (nisnan x); [discriminate|]. destruct (nisinf x); [discriminate|]. now intros [= <-]. Qed.

  Lemma padZip_nil_r {A B} (l : list A) : padZip l (@nil B) = map (fun a => (Some a, None)) l.
  Proof. induction l as [|a l IH]; [reflexivity|]. cbn. now rewrite IH. Qed.
  Lemma imap_words (l1 l2 : list T) ws : mapM imapPair (padZip l1 l2) = Ok ws ->
    List.length l1 = List.length l2 /\ ws = map (fun p => pairText (fst p) (snd p)) (combine l1 l2) /\ forall b, In b l2 -> is_ok (pyint b).
  Proof.
    revert l2 ws. induction l1 as [|a l1 IH]; intros [|b l2] ws E.
    - cbn in E. apply Ok_eq in E. subst. repeat split; auto. intros b [].
    - discriminate E.
    - discriminate E.
    - cbn [padZip mapM imapPair] in E. destruct (pyint b) as [z|] eqn:Z; [|discriminate]. cbn [bind] in E.
      destruct (mapM imapPair (padZip l1 l2)) as [t|] eqn:M; [|discriminate]. cbn [bind] in E. apply Ok_eq in E. subst ws.
      destruct (IH l2 t M) as (L & -> & P). apply pyint_val in Z as Z'. subst z. split; [cbn; now rewrite L|]. split; [reflexivity|].
      intros x [<-|Hx]; [rewrite Z; eexists; reflexivity|auto].
  Qed.
  Lemma map_fst_combine {A B} (l1 : list A) (l2 : list B) : List.length l1 = List.length l2 -> map fst (combine l1 l2) = l1.
  Proof. revert l2. induction l1 as [|a l1 IH]; intros [|b l2] H; try discriminate; [reflexivity|]. cbn. rewrite IH; auto. Qed.
  Lemma map_snd_combine {A B} (l1 : list A) (l2 : list B) : List.length l1 = List.length l2 -> map snd (combine l1 l2) = l2.
  Proof. revert l2. induction l1 as [|a l1 IH]; intros [|b l2] H; try discriminate; [reflexivity|]. cbn. rewrite IH; auto. Qed.

  Lemma imap_back m e : im_dim m <> None -> imapWrite m = Ok e -> imapRead e = Ok (keptMap m).
  Proof.
    intros Dm E. unfold imapWrite in E. destruct (mapM imapPair _) as [ws|] eqn:M; [|discriminate]. cbn [bind] in E.
    apply Ok_eq in E. subst e. destruct (imap_words _ _ _ M) as (L & -> & _).
    destruct (im_dim m) as [d|] eqn:D; [|contradiction].
    unfold imapRead. cbn [x_attrib x_text dget]. cbn [String.eqb Ascii.eqb Bool.eqb]. rewrite parseDim_natText. cbn [bind].
    rewrite split_join by (apply Forall_forall; intros w H; apply in_map_iff in H as [p [<- _]]; apply pairText_word).
    rewrite !mapM_map.
    assert (P : forall a b : T, splitAt "@" (pairText a b) = [formatStr a; zText (ntrunc b)])
      by (intros; apply splitAt_pair; [apply noAt_sig|apply noAt_z]).
    rewrite (mapM_Ok _ (fun p => keepStr (fst p))) by (intros p _; rewrite P; cbn [getn nth_error bind]; apply parse_formatStr).
    cbn [bind].
    rewrite (mapM_Ok _ (fun p => keepInt (snd p))) by (intros p _; rewrite P; cbn [getn nth_error bind]; apply parse_zText).
    cbn [bind]. unfold keptMap. rewrite D. f_equal. f_equal.
    - now rewrite <- (map_map fst keepStr), map_fst_combine.
    - now rewrite <- (map_map snd keepInt), map_snd_combine.
  Qed.
  Definition imapWritable (m : imap T) : Prop :=
    List.length (im_in m) = List.length (im_out m) /\ forall b, In b (im_out m) -> is_ok (pyint b).
  Lemma imapWrite_ok m : is_ok (imapWrite m) <-> imapWritable m.
  Proof.
    unfold imapWrite, imapWritable. split.
    - intros [e E]. destruct (mapM imapPair _) as [ws|] eqn:M; [|discriminate]. destruct (imap_words _ _ _ M) as (L & _ & P). auto.
    - intros [L P]. assert (Q : is_ok (mapM imapPair (padZip (im_in m) (im_out m)))).
      { revert L P. generalize (im_in m) (im_out m). induction l as [|a l IH]; intros [|b l'] L P; try discriminate; [eexists; reflexivity|].
        cbn [padZip mapM imapPair]. destruct (P b (or_introl eq_refl)) as [z ->]. cbn [bind].
        destruct (IH l') as [ys ->]; [now injection L|intros; apply P; now right|]. eexists. reflexivity. }
      destruct Q as [ws ->]. eexists. reflexivity.
  Qed.
End Arrays.
