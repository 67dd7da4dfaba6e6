(** Line ends of LUT files; where a config's files are looked for; trees of transforms. *)
From Coq Require Import List Arith Lia ZArith String Ascii Bool.
From Verif Require Import PBase PRegistry PLutText SpecConvert.
Import ListNotations.
Local Open Scope string_scope.
Local Open Scope list_scope.

Lemma noLineEnd_oneLine s : noLineEnd s -> oneLine s.
Proof.
  intro H. refine (Forall_impl _ _ H). intros a [A B]. unfold endsLine. apply orb_false_iff.
  split; [now apply Ascii.eqb_neq in A|now apply Ascii.eqb_neq in B].
Qed.

(** One line and its end. *)
Lemma line_ended e l cur r : In e lineEnds -> oneLine l -> (r = [] \/ e <> text ["013"%char] \/ hd " "%char r <> "010"%char) ->
  splitLinesFrom cur (chars l ++ chars e ++ r) = text (rev cur ++ chars l) :: splitLinesFrom [] r.
Proof.
  unfold oneLine. intros He H Hr. revert cur. induction H as [|a t Ha _ IH]; intro cur.
  - cbn [app]. rewrite app_nil_r. destruct He as [<-|[<-|[<-|[]]]].
    + reflexivity.
    + destruct r as [|b r]; [reflexivity|]. destruct Hr as [Hr|[Hr|Hr]]; [discriminate|now elim Hr|]. cbn in Hr.
      cbn [chars list_ascii_of_string text app]. change (text (rev cur) :: (if Ascii.eqb b "010" then splitLinesFrom [] r else splitLinesFrom [] (b :: r)) = text (rev cur) :: splitLinesFrom [] (b :: r)).
      destruct (Ascii.eqb_spec b "010"); [contradiction|reflexivity].
    + reflexivity.
  - cbn [app splitLinesFrom]. apply orb_false_iff in Ha as [-> ->]. rewrite IH. cbn [rev]. now rewrite <- app_assoc.
Qed.

Lemma no_feed e ls r : In e lineEnds -> e = text ["013"%char] -> Forall noLineEnd ls -> Forall (fun a => a <> "010"%char) r ->
  chars (endedBy e ls) ++ r = [] \/ hd " "%char (chars (endedBy e ls) ++ r) <> "010"%char.
Proof.
  intros _ -> H Hr. destruct H as [|l ls Hl _].
  - cbn. destruct Hr; [now left|right; assumption].
  - right. cbn [endedBy]. rewrite !chars_app. destruct Hl as [|a t [A _] _]; [discriminate|exact A].
Qed.
Lemma lines_ended e ls r : In e lineEnds -> Forall noLineEnd ls -> Forall (fun a => a <> "010"%char) r ->
  splitLinesFrom [] (chars (endedBy e ls) ++ r) = ls ++ splitLinesFrom [] r.
Proof.
  intros He H Hr. induction H as [|l ls Hl H IH]; [reflexivity|]. cbn [endedBy app]. rewrite !chars_app, <- !app_assoc.
  rewrite line_ended; [|exact He|now apply noLineEnd_oneLine|].
  - cbn [rev app]. now rewrite text_chars, IH.
  - destruct He as [<-|[<-|[<-|[]]]]; [right; left; discriminate| |right; left; discriminate].
    destruct (no_feed (text ["013"%char]) ls r ltac:(cbn; auto) eq_refl H Hr) as [E|E]; auto.
Qed.
Lemma last_line cur l : Forall (fun a => endsLine a = false) l -> splitLinesFrom cur l = flush (rev l ++ cur).
Proof.
  intro H. revert cur. induction H as [|a l Ha _ IH]; intro cur; [reflexivity|]. cbn [splitLinesFrom].
  apply orb_false_iff in Ha as [-> ->]. rewrite IH. cbn [rev]. now rewrite <- app_assoc.
Qed.
Lemma ends_same e ls last t : In e lineEnds -> Forall noLineEnd ls -> noLineEnd last -> last <> "" ->
  t = endedBy e (ls ++ [last]) \/ t = (endedBy e ls ++ last)%string -> splitLines t = splitLines (lines (ls ++ [last])).
Proof.
  intros He H Hl Hn Ht. rewrite (splitLines_all (ls ++ [last])).
  2:{ apply Forall_app. split; [|constructor; [now apply noLineEnd_oneLine|constructor]]. eapply Forall_impl; [|exact H]. apply noLineEnd_oneLine. }
  unfold splitLines. destruct Ht as [-> | ->].
  - rewrite <- (app_nil_r (chars _)), lines_ended; [cbn [splitLinesFrom]; apply app_nil_r|exact He| |constructor].
    apply Forall_app. split; [exact H|constructor; [exact Hl|constructor]].
  - rewrite chars_app, lines_ended; [|exact He|exact H|].
    + f_equal. rewrite last_line by now apply noLineEnd_oneLine. rewrite app_nil_r. unfold flush. destruct (rev (chars last)) eqn:E.
      * elim Hn. rewrite <- (text_chars last), <- (rev_involutive (chars last)), E. reflexivity.
      * rewrite <- E, rev_involutive, text_chars. reflexivity.
    + eapply Forall_impl; [|exact Hl]. cbn. tauto.
Qed.

Theorem line_ends {T} {NM : Num T} {X : NumText T} e ls last t : In e lineEnds -> Forall noLineEnd ls -> noLineEnd last -> last <> "" ->
  t = endedBy e (ls ++ [last]) \/ t = (endedBy e ls ++ last)%string ->
  (forall inverse interpolation maps half, readSPI1D (T := T) t inverse interpolation maps half = readSPI1D (lines (ls ++ [last])) inverse interpolation maps half) /\
  (forall interpolation, readSPI3D (T := T) t interpolation = readSPI3D (lines (ls ++ [last])) interpolation) /\
  readCSP (T := T) t = readCSP (lines (ls ++ [last])).
Proof.
  intros He H Hl Hn Ht. pose proof (ends_same e ls last t He H Hl Hn Ht) as E. unfold readSPI1D, readSPI3D, readCSP. rewrite E. auto.
Qed.

(** * Blanks at the end of lines *)
Section Blanks.
  Context {T : Type} {NM : Num T} {X : NumText T}.
  Lemma bind_cong {A B} (r r' : res A) (f g : A -> res B) : r' = r -> (forall x, f x = g x) -> (let* x := r' in f x) = (let* x := r in g x).
  Proof. intros -> F. destruct r; [apply F|reflexivity]. Qed.
  Lemma bext {A B} (r : res A) (f g : A -> res B) : (forall x, f x = g x) -> (let* x := r in f x) = (let* x := r in g x).
  Proof. now apply bind_cong. Qed.
  Let sp := fun a => isSpace a = true.

  Lemma split_blanks cur l w : Forall sp w -> splitFrom cur (l ++ w) = splitFrom cur l.
  Proof.
    intro H. revert cur. induction l as [|a l IH]; intro cur; cbn [app splitFrom].
    - assert (E : forall w, Forall sp w -> splitFrom [] w = []) by (induction 1 as [|b t Hb _ I]; [reflexivity|]; cbn [splitFrom]; unfold sp in Hb; now rewrite Hb, I).
      destruct H as [|b t Hb Ht]; [reflexivity|]. cbn [splitFrom]. unfold sp in Hb. rewrite Hb, (E t Ht). apply app_nil_r.
    - rewrite !IH. reflexivity.
  Qed.
  Lemma drop_blanks w l : Forall sp w -> dropWhile isSpace (w ++ l) = dropWhile isSpace l.
  Proof. induction 1 as [|b t Hb _ IH]; [reflexivity|]. cbn [app dropWhile]. unfold sp in Hb. now rewrite Hb. Qed.
  Lemma drop_before w l : Forall sp w -> dropWhile isSpace (l ++ w) = dropWhile isSpace l ++ w \/ dropWhile isSpace (l ++ w) = [] /\ dropWhile isSpace l = [].
  Proof.
    intro H. induction l as [|a l IH]; cbn [app dropWhile].
    - right. rewrite <- (app_nil_r w), drop_blanks by exact H. split; reflexivity.
    - destruct (isSpace a); [exact IH|left; reflexivity].
  Qed.
  Lemma rstrip_blanks l l' : blanksAfter l l' -> rstrip l' = rstrip l.
  Proof. intros (w & -> & H). unfold rstrip. rewrite chars_app, rev_app_distr, drop_blanks by now apply Forall_rev. reflexivity. Qed.
  Lemma strip_blanks l l' : blanksAfter l l' -> strip l' = strip l.
  Proof.
    intros (w & -> & H). unfold strip. rewrite chars_app. destruct (drop_before (chars w) (chars l) H) as [E|[E1 E2]].
    - rewrite E, rev_app_distr, drop_blanks by now apply Forall_rev. reflexivity.
    - now rewrite E1, E2.
  Qed.
  Lemma words_blanks l l' : blanksAfter l l' -> MNumText.split l' = MNumText.split l.
  Proof. intros (w & -> & H). unfold MNumText.split. rewrite chars_app. now apply split_blanks. Qed.
  Lemma int_blanks l l' : blanksAfter l l' -> parseInt l' = parseInt l.
  Proof. intro H. unfold parseInt. now rewrite (strip_blanks _ _ H). Qed.

  Notation same := (Forall2 blanksAfter).
  Lemma spi_blanks ls ls' : same ls ls' -> forall d, spiLines (T := T) ls' d = spiLines ls d.
  Proof.
    induction 1 as [|l l' ls ls' H _ IH]; intro d; [reflexivity|]. cbn [spiLines]. rewrite (words_blanks _ _ H).
    apply bext. intro t0. repeat (match goal with |- context [if ?b then _ else _] => destruct b end); repeat (apply bext; intro); try apply IH; try reflexivity.
    all: try (match goal with |- (if ?b then _ else _) = _ => destruct b end; [apply IH|reflexivity]).
  Qed.
  Lemma getn_same {B} ls ls' k (f g : string -> res B) : same ls ls' -> (forall l l', blanksAfter l l' -> f l' = g l) ->
    (let* l := getn ls' k in f l) = (let* l := getn ls k in g l).
  Proof.
    intros H F. revert k. induction H as [|l l' ls ls' Hl _ IH]; intros [|k]; try reflexivity.
    - exact (F _ _ Hl).
    - exact (IH k).
  Qed.
  Lemma skipn_same ls ls' k : same ls ls' -> same (skipn k ls) (skipn k ls').
  Proof. intro H. revert k. induction H; intros [|k]; cbn; auto. Qed.
  Lemma mapM_same {B} ls ls' (f : string -> res B) : same ls ls' -> (forall l l', blanksAfter l l' -> f l' = f l) -> mapM f ls' = mapM f ls.
  Proof. intros H F. induction H as [|l l' ls ls' Hl _ IH]; [reflexivity|]. cbn [mapM]. now rewrite (F _ _ Hl), IH. Qed.

  Lemma spi3_blanks t t' interpolation : same (splitLines t) (splitLines t') -> readSPI3D (T := T) t' interpolation = readSPI3D t interpolation.
  Proof.
    intro H. unfold readSPI3D. apply getn_same; [exact H|]. intros l0 l0' H0. rewrite (words_blanks _ _ H0). apply bext. intro t0.
    apply bind_cong; [|reflexivity]. destruct (String.eqb t0 "SPILUT"); [|reflexivity]. apply bext. intro t1. apply bext. intro v. destruct (neqb v n1); [|reflexivity].
    apply getn_same; [exact H|]. intros l1 l1' H1. rewrite (words_blanks _ _ H1). apply bext. intro tokens. apply bext. intro a. apply bext. intros [|]; [|reflexivity].
    apply getn_same; [exact H|]. intros l2 l2' H2. rewrite (words_blanks _ _ H2). apply bext. intro resolution.
    rewrite (mapM_same (skipn 3 (splitLines t)) (skipn 3 (splitLines t'))); [reflexivity|now apply skipn_same|].
    intros l l' Hl. now rewrite (words_blanks _ _ Hl).
  Qed.

  (** Two outcomes of the same kind with lines that differ in blanks. *)
  Definition sameRes (r r' : res (list string)) : Prop :=
    match r, r' with Ok ls, Ok ls' => same ls ls' | Err e, Err e' => e = e' | _, _ => False end.
  Lemma bind_same {B} r r' (f g : list string -> res B) : sameRes r r' -> (forall ls ls', same ls ls' -> f ls' = g ls) ->
    (let* ls := r' in f ls) = (let* ls := r in g ls).
  Proof. destruct r, r'; cbn; intros H F; try contradiction; [now apply F|now subst]. Qed.
  Lemma begin_same ls ls' : same ls ls' -> sameRes (afterBegin ls) (afterBegin ls').
  Proof. induction 1 as [|l l' ls ls' Hl H IH]; [reflexivity|]. cbn [afterBegin]. rewrite (rstrip_blanks _ _ Hl). destruct (String.eqb _ _); [exact H|exact IH]. Qed.
  Lemma end_same ls ls' : same ls ls' -> same (afterEnd ls) (afterEnd ls').
  Proof. induction 1 as [|l l' ls ls' Hl H IH]; [constructor|]. cbn [afterEnd]. rewrite (rstrip_blanks _ _ Hl). destruct (String.eqb _ _); [now apply skipn_same|exact IH]. Qed.
  Lemma blank_same ls ls' : same ls ls' -> sameRes (skipBlank ls) (skipBlank ls').
  Proof. induction 1 as [|l l' ls ls' Hl H IH]; [reflexivity|]. cbn [skipBlank]. rewrite (rstrip_blanks _ _ Hl). destruct (String.eqb _ _); [exact IH|]. now constructor. Qed.
  Lemma prelut_same ls ls' k : same ls ls' -> readPrelut (T := T) ls' k = readPrelut ls k.
  Proof.
    intro H. unfold readPrelut. apply getn_same; [exact H|]. intros l0 l0' H0. rewrite (int_blanks _ _ H0). apply bext. intro z.
    apply getn_same; [exact H|]. intros l1 l1' H1. rewrite (words_blanks _ _ H1). apply bext. intro ins.
    apply getn_same; [exact H|]. intros l2 l2' H2. now rewrite (words_blanks _ _ H2).
  Qed.
  Lemma samples_same place ls ls' (s : list T) : same ls ls' -> cspSamples place ls' s = cspSamples place ls s.
  Proof.
    intro H. unfold cspSamples. f_equal. generalize (0, s). induction H as [|l l' ls ls' Hl _ IH]; intros [k v]; [reflexivity|]. cbn [for_each].
    rewrite (words_blanks _ _ Hl). apply bext. intro st. apply IH.
  Qed.
  Lemma csp_blanks t t' : same (splitLines t) (splitLines t') -> readCSP (T := T) t' = readCSP t.
  Proof.
    intro H. unfold readCSP. apply getn_same; [exact H|]. intros l0 l0' H0. rewrite (words_blanks _ _ H0). apply bext. intro t0.
    destruct (String.eqb t0 "CSPLUTV100"); [|reflexivity]. apply getn_same; [exact H|]. intros l1 l1' H1. rewrite (words_blanks _ _ H1). apply bext. intro format.
    destruct (_ || _); [|reflexivity]. apply bind_same; [now apply begin_same, skipn_same|]. intros a a' Ha. apply bind_same; [now apply blank_same, end_same|]. intros b b' Hb.
    rewrite !(prelut_same b b' _ Hb). apply bext. intro r. apply bext. intro g. apply bext. intro bl.
    apply bind_same; [now apply blank_same, skipn_same|]. intros c c' Hc. apply getn_same; [exact Hc|]. intros l2 l2' H2. rewrite (words_blanks _ _ H2). apply bext. intro resolution.
    apply bext. intro r0. apply bind_cong; [|reflexivity]. destruct (String.eqb format "3D").
    - apply bext. intro r1. apply bext. intro r2. now rewrite (samples_same _ (skipn 1 c) (skipn 1 c')) by now apply skipn_same.
    - now rewrite (samples_same _ (skipn 1 c) (skipn 1 c')) by now apply skipn_same.
  Qed.

  Theorem line_blanks ls ls' : Forall noLineEnd ls -> Forall noLineEnd ls' -> same ls ls' ->
    (forall inverse interpolation maps half, readSPI1D (T := T) (lines ls') inverse interpolation maps half = readSPI1D (lines ls) inverse interpolation maps half) /\
    (forall interpolation, readSPI3D (T := T) (lines ls') interpolation = readSPI3D (lines ls) interpolation) /\
    readCSP (T := T) (lines ls') = readCSP (lines ls).
  Proof.
    intros H1 H2 H. assert (E : forall l, Forall noLineEnd l -> splitLines (lines l) = l).
    { intros l Hl. apply splitLines_all. eapply Forall_impl; [|exact Hl]. apply noLineEnd_oneLine. }
    assert (S : same (splitLines (lines ls)) (splitLines (lines ls'))) by now rewrite !E.
    split; [|split].
    - intros. unfold readSPI1D. now rewrite (spi_blanks _ _ S).
    - intros. now apply spi3_blanks.
    - now apply csp_blanks.
  Qed.
End Blanks.
(** * Paths *)
Lemma head_of pre name : fileName name -> headPath (text pre ++ "/" ++ name) =
  (if forallb (fun c => Ascii.eqb c "/") (pre ++ ["/"%char]) then text (pre ++ ["/"%char]) else text (rev (dropWhile (fun c => Ascii.eqb c "/") (rev pre)))).
Proof.
  intro H. unfold headPath.
  assert (E : slice (chars (text pre ++ "/" ++ name)) 0 (Z.to_nat (rfind "/" (text pre ++ "/" ++ name) + 1)) = pre ++ ["/"%char]).
  { unfold rfind. rewrite !chars_app, chars_text. cbn [chars list_ascii_of_string app].
    rewrite rfindFrom_app. cbn [rfindFrom]. rewrite Ascii.eqb_refl. rewrite rfindFrom_none by exact H.
    unfold slice. cbn [skipn]. rewrite Nat.sub_0_r.
    replace (Z.to_nat (0 + Z.of_nat (List.length pre) + 1)) with (List.length pre + 1) by lia. 
    rewrite firstn_app_2. reflexivity. }
  rewrite E. rewrite rev_app_distr. cbn [rev app dropWhile]. rewrite Ascii.eqb_refl. reflexivity.
Qed.
Theorem config_paths name search : fileName name ->
  (forall dir, directory dir -> relative search -> pathJoin (headPath (dir ++ "/" ++ name)) search = (dir ++ "/" ++ search)%string) /\
  (relative search -> pathJoin (headPath ("/" ++ name)) search = ("/" ++ search)%string) /\
  (relative search -> pathJoin (headPath name) search = search) /\
  (forall config t, search = String "/" t -> pathJoin (headPath config) search = search).
Proof.
  intro H. assert (Rel : relative search -> startsSlash search = false).
  { intro R. destruct search as [|a t]; [reflexivity|]. cbn. destruct (Ascii.eqb_spec a "/") as [->|]; [elim (R t eq_refl)|reflexivity]. }
  split; [|split; [|split]].
  - intros dir (t & a & -> & Ha) R. replace (t ++ String a "")%string with (text (chars t ++ [a])).
    2:{ rewrite <- (text_chars (t ++ String a "")), chars_app. reflexivity. }
    rewrite head_of by exact H. rewrite forallb_app, forallb_app. cbn [forallb]. apply Ascii.eqb_neq in Ha. rewrite Ha. cbn [andb]. rewrite andb_false_r. cbn [andb].
    rewrite rev_app_distr. cbn [rev app dropWhile]. rewrite Ha. cbn [rev]. rewrite rev_involutive.
    unfold pathJoin. rewrite (Rel R). unfold endsSlash. rewrite chars_text, rev_app_distr. cbn [rev app]. now rewrite Ha.
  - intro R. pose proof (head_of [] name H) as E. cbn [text string_of_list_ascii app forallb] in E. change ("" ++ "/" ++ name)%string with ("/" ++ name)%string in E. rewrite E.
    unfold pathJoin. rewrite (Rel R). reflexivity.
  - intro R. unfold headPath, rfind. rewrite rfindFrom_none by exact H. cbn. unfold pathJoin. now rewrite (Rel R).
  - intros config t ->. reflexivity.
Qed.

(** * Trees of transforms *)
Section Trees.
  Context {T : Type} {NM : Num T}.
  Variable read : string -> string -> string -> res (option (list (node T))).

  Lemma mapM_app' {A B} (f : A -> res B) l1 l2 : mapM f (l1 ++ l2) = (let* a := mapM f l1 in let* b := mapM f l2 in Ok (a ++ b)).
  Proof.
    induction l1 as [|x l1 IH]; cbn [app mapM bind]; [destruct (mapM f l2); reflexivity|]. destruct (f x); [|reflexivity]. cbn [bind]. rewrite IH.
    destruct (mapM f l1); [|reflexivity]. cbn [bind]. destruct (mapM f l2); reflexivity.
  Qed.
  Theorem tree_converted : forall t : otree T,
    convertTransforms (withFiles read t) = (let* ps := mapM (leafNodes read) (leaves t) in Ok (List.concat ps)).
  Proof.
    fix IH 1. intros [children|src i d|m o d|b d|].
    - cbn [withFiles convertTransforms leaves]. revert children. fix IHc 1. intros [|t ts]; [reflexivity|]. cbn [map]. rewrite (IH t), (IHc ts), mapM_app'.
      destruct (mapM (leafNodes read) (leaves t)) as [a|e]; [|reflexivity]. cbn [bind].
      match goal with |- context [mapM (leafNodes read) ?l] => destruct (mapM (leafNodes read) l) as [c|e]; [|reflexivity] end. cbn [bind]. now rewrite concat_app.
    - cbn. destruct (read src i d) as [[ns|]|e]; cbn; now rewrite ?app_nil_r.
    - cbn [withFiles leaves mapM leafNodes]. destruct (convertTransforms (OMatrix m o d)); cbn; now rewrite ?app_nil_r.
    - cbn [withFiles leaves mapM leafNodes]. destruct (convertTransforms (OLog b d)); cbn; now rewrite ?app_nil_r.
    - reflexivity.
  Qed.
End Trees.
