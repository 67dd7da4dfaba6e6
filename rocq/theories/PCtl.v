(** .ctl files. *)
From Coq Require Import List Arith Lia ZArith String Ascii Bool.
From Verif Require Import PBase PFacts PRegistry PNumText PLutText PInverse2 PGrid PXmlArray PSpi PSpi3 PCsp PCsp2 PCsp3 SpecLut.
Import ListNotations.
Local Open Scope string_scope.
Local Open Scope list_scope.

Section Between.
  Definition until (upto : string) : list string -> list string :=
    fix until ls := match ls with [] => [] | l :: t => if String.eqb l upto then [] else l :: until t end.
  Lemma between_skip from upto pre t : ~ In from pre -> between from upto (pre ++ from :: t) = until upto t.
  Proof.
    intro H. induction pre as [|l pre IH]; cbn [app between].
    - now rewrite String.eqb_refl.
    - destruct (String.eqb_spec l from) as [->|_]; [destruct H; now left|]. apply IH. intro; apply H; now right.
  Qed.
  Lemma between_over from upto pre t : ~ In from pre -> between from upto (pre ++ t) = between from upto t.
  Proof.
    intro H. induction pre as [|l pre IH]; cbn [app between]; [reflexivity|].
    destruct (String.eqb_spec l from) as [->|_]; [destruct H; now left|]. apply IH. intro; apply H; now right.
  Qed.
  Lemma between_next from upto l t : l <> from -> between from upto (l :: t) = between from upto t.
  Proof. intro H. cbn [between]. now destruct (String.eqb_spec l from). Qed.
  Lemma until_stop upto ls t : ~ In upto ls -> until upto (ls ++ upto :: t) = ls.
  Proof.
    intro H. induction ls as [|l ls IH]; cbn [app until].
    - now rewrite String.eqb_refl.
    - destruct (String.eqb_spec l upto) as [->|_]; [destruct H; now left|]. f_equal. apply IH. intro; apply H; now right.
  Qed.
  Lemma comma_last {A} (f : A -> string) (g : nat -> A) n : map (fun i => (f (g i) ++ if Nat.eqb (S i) n then "" else ",")%string) (seq 0 n) =
    commaLines (map (fun i => f (g i)) (seq 0 n)).
  Proof.
    assert (H : forall m a, a + m = n -> map (fun i => (f (g i) ++ if Nat.eqb (S i) n then "" else ",")%string) (seq a m) =
      commaLines (map (fun i => f (g i)) (seq a m))); [|now apply H].
    induction m as [|m IH]; intros a E; [reflexivity|]. cbn [seq map]. rewrite IH by lia.
    destruct m as [|m].
    - cbn [seq map commaLines]. destruct (Nat.eqb_spec (S a) n); [|lia]. f_equal. rewrite <- (text_chars (_ ++ "")%string), chars_app, app_nil_r. apply text_chars.
    - cbn [seq map commaLines]. destruct (Nat.eqb_spec (S a) n); [lia|]. reflexivity.
  Qed.
End Between.

Section Ctl.
  Context {T : Type} {NM : Num T} {X : NumText T} {OK : TextOk T}.
  Variables (str : T -> string) (kept : T -> T).

  Theorem ctl1d_reds (lo hi : T) d1 d2 entries channels components :
    (forall i, i < entries -> nth_error d1 (i * channels) = nth_error d2 (i * channels)) ->
    writeCTL1D str lo hi d1 entries channels components = writeCTL1D str lo hi d2 entries channels components.
  Proof.
    intro H. assert (E : ctlRows str d1 entries channels = ctlRows str d2 entries channels).
    { apply mapM_ext. intros i Hi. apply in_seq in Hi. unfold getn. rewrite H by lia. reflexivity. }
    unfold writeCTL1D. now rewrite E.
  Qed.

  Definition red (data : list T) channels i : T := nth (i * channels) data n0.
  Lemma reds data channels entries : entries * channels <= List.length data -> channels <> 0 ->
    firstOfRows entries channels 1 data = map (red data channels) (seq 0 entries).
  Proof.
    intros L C. unfold firstOfRows. assert (G : forall l, (forall i, In i l -> i * channels < List.length data) ->
      List.concat (map (fun i => firstn 1 (skipn (i * channels) data)) l) = map (red data channels) l).
    { induction l as [|i l IH]; intro H; [reflexivity|]. cbn [map List.concat]. rewrite IH by (intros; apply H; now right).
      specialize (H i (or_introl eq_refl)). destruct (skipn (i * channels) data) as [|x l'] eqn:Es.
      - apply (f_equal (@List.length T)) in Es. rewrite skipn_length in Es. cbn in Es. lia.
      - apply (f_equal (fun l => nth_error l 0)) in Es. rewrite nth_skipn, Nat.add_0_r in Es. apply nth_error_nth with (d := n0) in Es.
        unfold red. rewrite Es. reflexivity. }
    apply G. intros i Hi. apply in_seq in Hi. nia.
  Qed.
  Lemma ctlRows_text data entries channels : entries * channels <= List.length data -> channels <> 0 ->
    ctlRows str data entries channels = Ok (commaLines (map str (firstOfRows entries channels 1 data))).
  Proof.
    intros L C. rewrite reds, map_map by assumption. rewrite <- (comma_last str (red data channels)). apply mapM_Ok. intros i Hi. apply in_seq in Hi.
    destruct (getn_lt data (i * channels)) as [x E]; [nia|]. rewrite E. cbn [bind].
    apply getn_some, nth_error_nth with (d := n0) in E. unfold red. now rewrite E.
  Qed.
  (** None of the rows ends the table. *)
  Lemma comma_in ls l : In l (commaLines ls) -> exists s, In s ls /\ (l = s \/ l = (s ++ ",")%string).
  Proof.
    induction ls as [|s ls IH]; [intros []|]. destruct ls as [|s' ls].
    - intros [<-|[]]. exists s. split; [now left|now left].
    - intros [<-|H]; [exists s; split; [now left|now right]|]. destruct (IH H) as (q & Hq & E). exists q. split; [now right|exact E].
  Qed.
  Lemma rows_plain vs l : Forall (printsAs str kept) vs -> In l (commaLines (map str vs)) -> oneLine l /\ l <> "};" /\
    (forall m, l <> ("const float lut" ++ m)%string).
  Proof.
    intros P H. apply comma_in in H as (s & Hs & E). apply in_map_iff in Hs as (x & <- & Hx). rewrite Forall_forall in P. pose proof (P x Hx) as Px.
    pose proof (str_word str kept x Px) as W. destruct Px as [_ Pp].
    assert (Sp : forall m, exists a b, chars ("const float lut" ++ m)%string = a ++ " "%char :: b) by (intro; exists (chars "const"); eexists; reflexivity).
    split; [|split].
    - destruct E as [->| ->]; [now apply oneLine_word|]. apply oneLine_app; [now apply oneLine_word|now repeat constructor].
    - destruct E as [->| ->]; intro B.
      + rewrite B in Pp. vm_compute in Pp. discriminate Pp.
      + apply (f_equal chars) in B. rewrite chars_app in B. apply (f_equal (@rev ascii)) in B. rewrite rev_app_distr in B. discriminate B.
    - intros m B. apply (f_equal chars) in B. destruct (Sp m) as (a & b & Em). rewrite Em in B.
      assert (In " "%char (chars (str x))).
      { destruct E as [->| ->]; [rewrite B; apply in_elt|]. rewrite chars_app in B. assert (In " "%char (chars (str x) ++ chars ",")) as I by (rewrite B; apply in_elt).
        apply in_app_iff in I as [I|[I|[]]]; [exact I|discriminate I]. }
      destruct W as [_ W]. rewrite Forall_forall in W. specialize (W _ H). discriminate W.
  Qed.

  Theorem ctl1d_tables (lo hi : T) data entries channels components :
    Nat.min 3 (Nat.min components channels) = 3 -> entries * channels <= List.length data ->
    Forall (printsAs str kept) (firstOfRows entries channels 1 data) ->
    exists t, writeCTL1D str lo hi data entries channels components = Ok t /\
      forall j, j < 3 -> between ("const float lut" ++ natText j ++ "[] = {")%string "};" (splitLines t) =
                         commaLines (map str (firstOfRows entries channels 1 data)).
  Proof.
    intros K L P. unfold writeCTL1D. rewrite K. cbn [Nat.eqb seq mapM]. rewrite ctlRows_text by (assumption || lia).
    set (rows := commaLines _) in *. cbn [bind]. eexists. split; [reflexivity|].
    assert (R : Forall (fun l => oneLine l /\ l <> "};" /\ (forall m, l <> ("const float lut" ++ m)%string)) rows).
    { apply Forall_forall. intros l Hl. now apply (rows_plain (firstOfRows entries channels 1 data)). }
    clearbody rows. cbn [List.concat app]. rewrite app_nil_r.
    assert (Rl : Forall oneLine rows) by (refine (Forall_impl _ _ R); tauto).
    rewrite splitLines_all.
    2:{ repeat match goal with
               | |- Forall _ (_ :: _) => constructor
               | |- Forall _ [] => constructor
               | |- Forall _ (_ ++ _) => apply Forall_app; split
               | |- Forall _ rows => exact Rl
               | |- Forall _ (ctlMain _) => unfold ctlMain; cbn [app]
               | |- oneLine (String.append _ _) => apply oneLine_app
               | |- oneLine (fmt3 _ _) => apply fmt3_line
               | |- oneLine (natText _) => apply oneLine_word, natText_word
               | |- oneLine (String _ _) => solve [repeat constructor]
               | |- oneLine EmptyString => constructor
               end. }
    rewrite Forall_forall in R.
    assert (Rn : forall m, ~ In ("const float lut" ++ m)%string rows) by (intros m Hm; destruct (R _ Hm) as (_ & _ & Q); exact (Q m eq_refl)).
    assert (Re : ~ In "};" rows) by (intro Hm; now destruct (R _ Hm) as (_ & Q & _)).
    intros j Hj. set (from := ("const float lut" ++ natText j ++ "[] = {")%string).
    do 5 (rewrite between_next by (unfold from; discriminate)).
    assert (Rj : ~ In from rows) by apply Rn.
    assert (Fin : forall t, between from "};" (from :: rows ++ "};" :: t) = rows).
    { intro t. etransitivity; [apply (between_skip from "};" []); intros []|]. now apply until_stop. }
    assert (Over : forall l t, l <> from -> between from "};" (l :: rows ++ "};" :: "" :: t) = between from "};" t).
    { intros l t Hl. rewrite between_next by exact Hl. rewrite between_over by exact Rj.
      now rewrite !between_next by (unfold from; discriminate). }
    repeat (rewrite <- app_assoc; cbn [app]). destruct j as [|[|[|j]]]; [..|lia].
    - apply Fin.
    - rewrite Over by (unfold from; discriminate). apply Fin.
    - rewrite Over by (unfold from; discriminate). rewrite Over by (unfold from; discriminate). apply Fin.
  Qed.
End Ctl.
