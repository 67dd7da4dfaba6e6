(** Lines and words of LUT files. *)
From Coq Require Import List Arith Lia ZArith String Ascii Bool.
From Verif Require Import PBase PRegistry PNumText SpecLut.
Import ListNotations.
Local Open Scope string_scope.
Local Open Scope list_scope.

(** ** Lines *)
Definition endsLine (a : ascii) : bool := Ascii.eqb a "010" || Ascii.eqb a "013".
Definition oneLine (s : string) : Prop := Forall (fun a => endsLine a = false) (chars s).
Lemma oneLine_app s t : oneLine s -> oneLine t -> oneLine (s ++ t).
Proof. unfold oneLine. rewrite chars_app. intros. apply Forall_app. auto. Qed.
Lemma oneLine_word s : word s -> oneLine s.
Proof.
  intros [_ H]. refine (Forall_impl _ _ H). intros a Ha. unfold endsLine. destruct (Ascii.eqb_spec a "010") as [->|_]; [discriminate|].
  destruct (Ascii.eqb_spec a "013") as [->|_]; [discriminate|reflexivity].
Qed.
Lemma oneLine_pad w s : oneLine s -> oneLine (padLeft w s).
Proof.
  unfold oneLine. rewrite chars_repeat_pad. intro. apply Forall_app. split; [|assumption].
  apply Forall_forall. intros x Hx. apply repeat_spec in Hx. now subst.
Qed.
Lemma oneLine_join sep ws : oneLine sep -> Forall oneLine ws -> oneLine (join sep ws).
Proof.
  intros S H. induction H as [|w ws Hw H IH]; [constructor|]. rewrite join_cons. destruct ws; [exact Hw|].
  apply oneLine_app; [exact Hw|]. apply oneLine_app; assumption.
Qed.
Lemma concat_cons s ss : String.concat "" (s :: ss) = (s ++ String.concat "" ss)%string.
Proof. destruct ss; [cbn; now rewrite <- (text_chars (s ++ "")), chars_app, app_nil_r, text_chars|reflexivity]. Qed.
Lemma oneLine_concat ss : Forall oneLine ss -> oneLine (String.concat "" ss).
Proof. induction 1 as [|s ss H _ IH]; [constructor|]. rewrite concat_cons. now apply oneLine_app. Qed.

Lemma splitLines_take l cur r : Forall (fun a => endsLine a = false) l ->
  splitLinesFrom cur (l ++ "010"%char :: r) = text (rev cur ++ l) :: splitLinesFrom [] r.
Proof.
  intro H. revert cur. induction H as [|a l Ha _ IH]; intro cur; cbn [app splitLinesFrom].
  - now rewrite app_nil_r.
  - apply orb_false_iff in Ha as [-> ->]. rewrite IH. cbn [rev]. now rewrite <- app_assoc.
Qed.
Lemma chars_lines ls : chars (lines ls) = flat_map (fun l => chars l ++ ["010"%char]) ls.
Proof. unfold lines. induction ls as [|l ls IH]; [reflexivity|]. cbn [map]. rewrite concat_cons, !chars_app, IH. reflexivity. Qed.
Lemma lines_app a b : lines (a ++ b) = (lines a ++ lines b)%string.
Proof. rewrite <- (text_chars (lines (a ++ b))), <- (text_chars (lines a ++ lines b)). f_equal. now rewrite chars_app, !chars_lines, flat_map_app. Qed.
Lemma splitLines_lines ls r : Forall oneLine ls -> splitLinesFrom [] (chars (lines ls) ++ r) = ls ++ splitLinesFrom [] r.
Proof.
  intro H. rewrite chars_lines. induction H as [|l ls Hl _ IH]; [reflexivity|]. cbn [flat_map app].
  rewrite <- !app_assoc. cbn [app]. rewrite splitLines_take by exact Hl. cbn [rev app]. now rewrite text_chars, IH.
Qed.
Lemma splitLines_all ls : Forall oneLine ls -> splitLines (lines ls) = ls.
Proof. intro H. unfold splitLines. rewrite <- (app_nil_r (chars (lines ls))), splitLines_lines by exact H. cbn. apply app_nil_r. Qed.

(** ** Words *)
Lemma split_words_nospace s : Forall (fun w => Forall (fun a => isSpace a = false) (chars w) /\ w <> "") (MNumText.split s).
Proof.
  unfold MNumText.split.
  assert (F : forall cur, Forall (fun a => isSpace a = false) cur -> Forall (fun w => Forall (fun a => isSpace a = false) (chars w) /\ w <> "") (flush cur)).
  { intros cur H. unfold flush. destruct cur as [|a cur]; [constructor|]. constructor; [|constructor]. rewrite chars_text. split.
    - apply Forall_rev. exact H.
    - apply text_nonempty. intro E. apply (f_equal (@List.length ascii)) in E. rewrite rev_length in E. discriminate. }
  generalize (chars s) as l. intro l. assert (G : forall cur, Forall (fun a => isSpace a = false) cur ->
    Forall (fun w => Forall (fun a => isSpace a = false) (chars w) /\ w <> "") (splitFrom cur l)); [|now apply G].
  induction l as [|a l IH]; intros cur H; cbn [splitFrom]; [now apply F|]. destruct (isSpace a) eqn:E.
  - apply Forall_app. split; [now apply F|]. apply IH. constructor.
  - apply IH. now constructor.
Qed.
Lemma one_word s : MNumText.split s = [s] -> word s.
Proof. intro H. pose proof (split_words_nospace s) as F. rewrite H in F. inversion F as [|? ? [Hs Ne] _]. now split. Qed.
Lemma split_word s : word s -> MNumText.split s = [s].
Proof. intro H. apply (split_join [s]). now constructor. Qed.

(** Rows of words, each after a blank. *)
Definition isBlank (s : string) : Prop := Forall (fun a => isSpace a = true) (chars s).
Lemma split_row pre ws w : isBlank pre -> Forall word ws ->
  MNumText.split (pre ++ String.concat "" (map (fun v => " " ++ padLeft w v) ws))%string = ws.
Proof.
  intros P H. unfold MNumText.split. rewrite chars_app, splitFrom_spaces by exact P. clear P.
  induction H as [|s ws Hs H IH]; [reflexivity|]. cbn [map]. rewrite concat_cons, !chars_app. cbn [chars list_ascii_of_string app].
  rewrite splitFrom_blank by reflexivity. rewrite splitFrom_pad.
  - f_equal. exact IH.
  - exact Hs.
  - destruct ws; [exact Logic.I|]. cbn [map]. rewrite concat_cons, chars_app. reflexivity.
Qed.
Lemma split_join_pad w ws : Forall word ws -> MNumText.split (join " " (map (padLeft w) ws)) = ws.
Proof.
  intro H. unfold MNumText.split. rewrite <- (app_nil_r (chars _)). rewrite splitFrom_row by (assumption || exact Logic.I). apply app_nil_r.
Qed.
(** Words each followed by a blank. *)
Lemma split_trail ws : Forall word ws -> MNumText.split (String.concat "" (map (fun v => (v ++ " ")%string) ws)) = ws.
Proof.
  intro H. unfold MNumText.split. induction H as [|s ws Hs H IH]; [reflexivity|]. cbn [map]. rewrite concat_cons, !chars_app, <- app_assoc.
  rewrite splitFrom_take by (exact Hs || reflexivity). f_equal. exact IH.
Qed.
Lemma split_two s t : word s -> word t -> MNumText.split (s ++ " " ++ t)%string = [s; t].
Proof. intros H1 H2. apply (split_join [s; t]). constructor; [exact H1|]. constructor; [exact H2|constructor]. Qed.
Lemma split_three s t u : word s -> word t -> word u -> MNumText.split (s ++ " " ++ t ++ " " ++ u)%string = [s; t; u].
Proof. intros H1 H2 H3. apply (split_join [s; t; u]). constructor; [exact H1|]. constructor; [exact H2|]. constructor; [exact H3|constructor]. Qed.

Lemma dropWhile_none {A} p (l : list A) : Forall (fun a => p a = false) l -> dropWhile p l = l.
Proof. destruct 1 as [|a l H _]; [reflexivity|]. cbn. now rewrite H. Qed.
Lemma rstrip_word s : word s -> rstrip s = s.
Proof.
  intros [_ H]. unfold rstrip. rewrite dropWhile_none, rev_involutive, text_chars; [reflexivity|]. now apply Forall_rev.
Qed.
Lemma dropWhile_in {A} p (l : list A) : Exists (fun a => p a = false) l -> Exists (fun a => p a = false) (dropWhile p l).
Proof. induction 1 as [a l H|a l H IH]; cbn; [rewrite H; now left|]. destruct (p a); [exact IH|now right]. Qed.
Lemma dropWhile_suffix {A} p (l : list A) : exists k, l = k ++ dropWhile p l /\ Forall (fun a => p a = true) k.
Proof.
  induction l as [|a l (k & E & F)]; [exists []; now split|]. cbn. destruct (p a) eqn:Ea; [|exists []; now split].
  exists (a :: k). split; [cbn; now rewrite <- E|now constructor].
Qed.
(** Text with a word in it does not look blank. *)
Lemma rstrip_nonempty s : MNumText.split s <> [] -> String.eqb (rstrip s) "" = false.
Proof.
  intro H. apply String.eqb_neq. intro E. apply H. unfold rstrip in E.
  destruct (dropWhile_suffix isSpace (rev (chars s))) as (k & Ek & Fk).
  assert (D : dropWhile isSpace (rev (chars s)) = []).
  { destruct (dropWhile isSpace (rev (chars s))) as [|a t]; [reflexivity|]. exfalso. apply (text_nonempty (rev (a :: t))) in E; [exact E|].
    intro R. apply (f_equal (@List.length ascii)) in R. rewrite rev_length in R. discriminate. }
  rewrite D, app_nil_r in Ek. unfold MNumText.split. rewrite <- (app_nil_r (chars s)), <- (rev_involutive (chars s)), Ek.
  rewrite splitFrom_spaces by (now apply Forall_rev). reflexivity.
Qed.

(** ** Numbers *)
Section Numbers.
  Context {T : Type} {NM : Num T} {X : NumText T} {OK : TextOk T}.
  Lemma fmtF_word (x : T) : word (fmtF x).
  Proof. apply word_formatFixed. Qed.
  Lemma fmtF_parse (x : T) : parseFloat (fmtF x) = Ok (viaFixed 6 x).
  Proof. apply parse_formatFixed. Qed.
  Lemma mapM_parse (f : T -> string) (k : T -> T) vs : (forall x, In x vs -> parseFloat (f x) = Ok (k x)) ->
    mapM parseFloat (map f vs) = Ok (map k vs).
  Proof.
    induction vs as [|v vs IH]; intro H; [reflexivity|]. cbn [map mapM]. rewrite (H v) by now left. cbn [bind].
    rewrite IH by (intros x Hx; apply H; now right). reflexivity.
  Qed.
  Lemma parse_nat n : parseDim (natText n) = Ok n.
  Proof. unfold parseDim. rewrite parseInt_natText. cbn [bind]. destruct (Z.ltb_spec (Z.of_nat n) 0); [lia|]. now rewrite Nat2Z.id. Qed.
  Lemma parse_nats ns : mapM parseDim (map natText ns) = Ok ns.
  Proof. induction ns as [|n ns IH]; [reflexivity|]. cbn [map mapM]. rewrite parse_nat. cbn [bind]. now rewrite IH. Qed.
  Lemma nats_word ns : Forall word (map natText ns).
  Proof. apply Forall_forall. intros w Hw. apply in_map_iff in Hw as (n & <- & _). apply natText_word. Qed.
  (** float() reads integers. *)
  Lemma parse_natText_ok n : exists v : T, parseFloat (natText n) = Ok v.
  Proof.
    unfold parseFloat, natText. pose proof (parse_literal false (decimal (N.of_nat n)) false [] None (decimal_digits _) (decimal_nonempty _)
      (Forall_nil _) Logic.I) as P. unfold literal in P. cbn [signText chars list_ascii_of_string app expPart] in P. rewrite !app_nil_r in P.
    cbn in P. rewrite P. eexists. reflexivity.
  Qed.
End Numbers.
