(** Texts that are not documents are refused. *)
From Coq Require Import List String Ascii Lia NArith Bool.
From Verif Require Import SpecBroken PNumText PXmlText PXmlTree PSpelling.
Import ListNotations.
Local Open Scope string_scope.
Local Open Scope list_scope.

Lemma lineEnds_app l r : good l -> lineEnds (l ++ r) = l ++ lineEnds r.
Proof. induction 1 as [|a l Ha _ IH]; [reflexivity|]. cbn [app lineEnds]. now rewrite (good_cr a Ha), IH. Qed.
(** Once the root is complete it stays. *)
Lemma add_root a p q : addText a p = Some q -> snd q = snd p.
Proof. destruct p as [[|f fs] r]; cbn [addText]; [destruct (isXmlSpace a); [|discriminate]|]; intro H; injection H as <-; reflexivity. Qed.

Lemma begun_run tags ended l : begun tags ended l ->
  good l /\ exists fs root, map f_tag fs = tags /\ (ended = false -> root = None) /\ (ended = true -> root <> None) /\
    forall rest, run Content ([], None) (l ++ rest) = run Content (fs, root) rest.
Proof.
  induction 1 as [d before D O|tags l tag attrs start s t es body _ (G & fs & root & F & R & _ & H) S Tx C|l e root after _ (G & fs & r & F & R & _ & H) E O].
  - destruct (outside_run before O) as [Go Ro]. split; [apply Forall_app; split; [|exact Go]; destruct D as [->|D]; [constructor|now apply declaration_good]|].
    exists [], None. repeat split; [discriminate|]. intro rest. rewrite <- app_assoc. rewrite <- (Ro None rest). destruct D as [->|D]; [reflexivity|]. now apply run_declaration.
  - destruct (proj2 elements_spelled es body C) as (Gb & B). destruct (start_facts _ _ _ S) as [T K]. destruct (run_start_spelled _ _ _ S) as (Di & m & Sm & Rm).
    split.
    { apply Forall_app. split; [exact G|]. apply Forall_app. split; [repeat constructor|]. apply Forall_app. split; [exact (start_good _ _ _ S)|]. apply Forall_app. split; [repeat constructor|].
      apply Forall_app. split; [exact (text_good _ _ Tx)|exact Gb]. }
    set (f0 := {| f_tag := tag; f_attrs := attrs; f_done := []; f_text := [] |}).
    destruct (B (withText f0 (rev (chars s)))) as (Fr & M & E1 & _ & _ & _ & _ & E6). exists (Fr :: fs), root. split; [cbn [map]; rewrite E1, F; reflexivity|]. split; [exact R|]. split; [discriminate|].
    intro rest. rewrite <- !app_assoc, H. cbn [app]. rewrite Rm. cbn [run]. rewrite (Sm _ ">"%char) by reflexivity. unfold inTag. change (isXmlSpace ">") with false. change (Ascii.eqb ">" ">") with true. cbv iota.
    rewrite rev_involutive. unfold openTag. rewrite Di. unfold within. cbn [fst snd]. fold f0. rewrite (run_text_spelled s t Tx). apply E6.
  - destruct (proj1 elements_spelled e root E) as (Ge & d & _ & Rd). destruct (outside_run after O) as [Go Ro]. split; [apply Forall_app; split; [exact G|]; apply Forall_app; now split|].
    exists [], (Some d). split; [reflexivity|]. split; [discriminate|]. split; [discriminate|]. intro rest. rewrite <- !app_assoc, H, Rd. destruct fs; [|discriminate]. rewrite (R eq_refl). cbn [putElem]. apply Ro.
Qed.

Lemma run_attrs_last tag attrs ls : Forall2 attrSpelled attrs ls -> attrs <> [] -> forall as_ m, tagState tag as_ m ->
  forall p rest, run m p (List.concat ls ++ rest) = run (InTag tag (rev attrs ++ as_) false) p rest.
Proof.
  induction 1 as [|kv l attrs ls H F IH]; intros N as_ m S p rest; [contradiction|]. cbn [List.concat rev]. rewrite <- !app_assoc, (run_attr tag as_ m kv l S H).
  destruct F as [|kv2 l2 attrs ls H2 F]; [reflexivity|]. rewrite (IH ltac:(discriminate) _ _ (in_state _ _)). reflexivity.
Qed.
Lemma run_tag_begun tag attrs l : tagBegun tag attrs l -> good l /\
  (exists m, tagState tag (rev attrs) m /\ forall p rest, run Content p ("<"%char :: l ++ rest) = run m p rest) /\
  (attrs <> [] -> forall p rest, run Content p ("<"%char :: l ++ rest) = run (InTag tag (rev attrs) false) p rest).
Proof.
  intros (ls & T & A & ->). split; [|split].
  - apply Forall_app. split; [exact (goodAll_name tag T)|]. clear T. induction A as [|kv l' attrs ls H _ IH]; [constructor|]. cbn [List.concat]. apply Forall_app. split; [exact (attr_good _ _ H)|exact IH].
  - destruct (run_attrs_spelled tag attrs ls A [] (OpenName (rev (chars tag))) (open_state tag)) as (m & S & R). rewrite app_nil_r in S. exists m. split; [exact S|]. intros p rest. rewrite <- app_assoc.
    replace ("<"%char :: chars tag ++ List.concat ls ++ rest) with (chars ("<" ++ tag)%string ++ List.concat ls ++ rest) by (rewrite chars_app; reflexivity). rewrite run_tag by exact T. apply R.
  - intros N p rest. rewrite <- app_assoc.
    replace ("<"%char :: chars tag ++ List.concat ls ++ rest) with (chars ("<" ++ tag)%string ++ List.concat ls ++ rest) by (rewrite chars_app; reflexivity). rewrite run_tag by exact T.
    rewrite (run_attrs_last tag attrs ls A N [] _ (open_state tag)), app_nil_r. reflexivity.
Qed.
Lemma distinct_dup l : ~ NoDup l -> distinct l = false.
Proof.
  intro H. destruct (distinct l) eqn:E; [|reflexivity]. exfalso. apply H. clear H. induction l as [|x l IH]; [constructor|]. cbn [distinct] in E. apply andb_prop in E as [E1 E2]. constructor; [|now apply IH].
  intro I. apply negb_true_iff in E1. assert (existsb (String.eqb x) l = true) by (apply existsb_exists; exists x; split; [exact I|apply String.eqb_refl]). congruence.
Qed.
(** An attribute up to its value. *)
Lemma run_to_value tag attrs l k w1 w2 w3 p rest : tagBegun tag attrs l -> xmlName k -> white w1 -> w1 <> [] -> white w2 -> white w3 ->
  run Content p ("<"%char :: l ++ w1 ++ chars k ++ w2 ++ "="%char :: w3 ++ rest) = run (BeforeValue tag (rev attrs) k) p rest.
Proof.
  intros B K W1 N1 W2 W3. destruct (run_tag_begun tag attrs l B) as (_ & (m & S & R) & _). rewrite R.
  rewrite (run_state_space tag (rev attrs)) by (try assumption; now apply white_spaces).
  destruct (name_chars k K) as (a & t & E & Ha & Hg & Ht). rewrite E. cbn [app run]. destruct (nameStart_not a Ha) as (M1 & _ & _ & M4 & M5 & _).
  unfold step at 1. rewrite (good_xml a Hg). unfold inTag. rewrite M4, M5, M1, Ha. cbn [andb]. unfold still. rewrite run_attr_name by exact Ht.
  rewrite run_equals by now apply white_spaces. rewrite run_before_value by now apply white_spaces.
  unfold name. rewrite rev_app_distr, rev_involutive. cbn [rev app]. rewrite <- E, text_chars. reflexivity.
Qed.
Lemma unknown_name nm : xmlName nm -> ~ In nm ["amp"; "lt"; "gt"; "quot"; "apos"] -> reference nm = None.
Proof.
  intros H N. unfold reference.
  repeat match goal with |- (if String.eqb nm ?x then _ else _) = _ => replace (String.eqb nm x) with false by (symmetry; apply String.eqb_neq; intros ->; apply N; cbn; tauto) end.
  destruct (name_chars nm H) as (a & t & -> & Ha & _). destruct t as [|b t]; [reflexivity|].
  replace (Ascii.eqb a "#") with false by (symmetry; apply Ascii.eqb_neq; intros ->; discriminate). reflexivity.
Qed.
Lemma run_dashes c : good c -> forall d p rest, d <= 1 -> without "--" (repeat "-"%char d ++ c ++ ["-"%char]) ->
  run (CommentText d) p (c ++ chars "--" ++ rest) = run (CommentText 2) p rest.
Proof.
  induction 1 as [|a c Ha Hc IH]; intros d p rest D W.
  - destruct d as [|[|d]]; [reflexivity| |lia]. exfalso. apply W. exists [], []. reflexivity.
  - cbn [app run]. unfold step at 1. rewrite (good_xml a Ha). destruct (Ascii.eqb a "-") eqn:E.
    + apply Ascii.eqb_eq in E. subst a. destruct d as [|[|d]]; [| |lia].
      * unfold still. apply IH; [lia|exact W].
      * exfalso. apply W. exists [], (c ++ ["-"%char]). reflexivity.
    + destruct d as [|[|d]]; [| |lia]; unfold still; (apply IH; [lia|]).
      * exact (without_tail _ _ _ W).
      * exact (without_tail _ _ _ (without_tail _ _ _ W)).
Qed.
Lemma control_xml a : control a -> isXmlChar a = false.
Proof.
  intros (H1 & H2 & H3 & H4). unfold isXmlChar, isXmlSpace. cbv zeta. apply not_true_is_false. rewrite !orb_true_iff, andb_true_iff, !N.eqb_eq, !N.leb_le. lia.
Qed.
Lemma printable_space a : printable a -> a <> " "%char -> isXmlSpace a = false.
Proof.
  intros P N. rewrite space_good by (apply good_text; now left). unfold printable in P. rewrite !orb_false_iff, !Ascii.eqb_neq. repeat split; [intros ->; cbn in P; lia|intros ->; cbn in P; lia|exact N].
Qed.

(** What breaks a text breaks it whatever follows. *)
Lemma broken_run tags ended b : broken tags ended b -> forall fs root rest, map f_tag fs = tags -> (ended = true -> root <> None) ->
  (exists g c, b = g ++ [c] /\ good g /\ (goodText c = true \/ control c)) /\ run Content (fs, root) (b ++ rest) = None.
Proof.
  assert (Sn : forall b : list ascii, good b -> b <> [] -> exists g c, b = g ++ [c] /\ good g /\ (goodText c = true \/ control c)).
  { intros x G N. destruct (exists_last N) as (g & c & ->). exists g, c. apply Forall_app in G as [G1 G2]. inversion G2. repeat split; [exact G1|now left]. }
  intro H. destruct H as [tags ended tag w T W Hd|tags ended tag attrs l w tail B D W Tl|tags ended tag attrs l a B Na Ha|tags ended tag attrs l k w1 w2 w3 a B K W1 N1 W2 W3 P A1 A2 A3
    |tags ended tag attrs l k w1 w2 w3 q v cs B K W1 N1 W2 W3 Q V|tags ended nm Nm U|tags ended c a P W Pa Na|tags ended a C|ended a P A1 A2|e l E]; intros fs root rest F R.
  - split.
    { apply Sn; [|discriminate]. apply Forall_app. split; [repeat constructor|]. apply Forall_app. split; [exact (goodAll_name tag T)|]. apply Forall_app. split; [now apply white_good|repeat constructor]. }
    rewrite <- !app_assoc. change ([">"%char] ++ rest) with (">"%char :: rest). rewrite (run_close_spelled tag w) by assumption.
    destruct fs as [|f fs]; [reflexivity|]. cbn [closeTag]. subst tags. cbn [map hd_error] in Hd. destruct (String.eqb_spec (f_tag f) tag); [congruence|reflexivity].
  - destruct (run_tag_begun tag attrs l B) as (G & (m & S & Rn) & _). split.
    { apply Sn; [|discriminate]. apply Forall_app. split; [repeat constructor|]. apply Forall_app. split; [exact G|]. apply Forall_app. split; [now apply white_good|]. destruct Tl as [->| ->]; repeat constructor. }
    rewrite <- !app_assoc. cbn [app]. rewrite Rn. destruct (run_state_white tag (rev attrs) m w S W) as (m2 & S2 & R2). rewrite R2. apply distinct_dup in D.
    destruct Tl as [->| ->]; cbn [chars list_ascii_of_string app run].
    + rewrite (S2 _ ">"%char) by reflexivity. unfold inTag. change (isXmlSpace ">") with false. change (Ascii.eqb ">" ">") with true. cbv iota. rewrite rev_involutive. unfold openTag. rewrite D. reflexivity.
    + rewrite (S2 _ "/"%char) by reflexivity. unfold inTag. change (isXmlSpace "/") with false. change (Ascii.eqb "/" ">") with false. change (Ascii.eqb "/" "/") with true. cbv iota. unfold still.
      unfold step. change (isXmlChar ">") with true. change (Ascii.eqb ">" ">") with true. cbv iota. rewrite rev_involutive. unfold openTag. rewrite D. reflexivity.
  - destruct (run_tag_begun tag attrs l B) as (G & _ & Rn). destruct (first_start a Ha) as (S & _ & Ga). split.
    { apply Sn; [|discriminate]. apply Forall_app. split; [repeat constructor|]. apply Forall_app. split; [exact G|]. constructor; [exact Ga|constructor]. }
    rewrite <- !app_assoc. cbn [app]. rewrite (Rn Na). cbn [run]. destruct (nameStart_not a S) as (M1 & _ & _ & M4 & M5 & _). unfold step. rewrite (good_xml a Ga). unfold inTag. rewrite M4, M5, M1. reflexivity.
  - destruct (run_tag_begun tag attrs l B) as (G & _ & _). assert (Ga : goodText a = true) by (apply good_text; now left). split.
    { apply Sn; [|discriminate]. apply Forall_app. split; [repeat constructor|]. apply Forall_app. split; [exact G|]. apply Forall_app. split; [now apply white_good|]. apply Forall_app. split; [exact (goodAll_name k K)|].
      apply Forall_app. split; [now apply white_good|]. apply Forall_app. split; [repeat constructor|]. apply Forall_app. split; [now apply white_good|]. constructor; [exact Ga|constructor]. }
    rewrite <- !app_assoc. cbn [app]. rewrite (run_to_value tag attrs) by assumption. cbn [run]. unfold step. rewrite (good_xml a Ga), (printable_space a P A1). now rewrite (proj2 (Ascii.eqb_neq a _) A2), (proj2 (Ascii.eqb_neq a _) A3).
  - destruct (run_tag_begun tag attrs l B) as (G & _ & _). assert (Gq : goodText q = true /\ isXmlSpace q = false /\ Ascii.eqb q """" || Ascii.eqb q "'" = true /\ Ascii.eqb "<" q = false) by (destruct Q as [->| ->]; now repeat split).
    destruct Gq as (Gq & Sq & Qq & Lq). split.
    { apply Sn; [|discriminate]. apply Forall_app. split; [repeat constructor|]. apply Forall_app. split; [exact G|]. apply Forall_app. split; [now apply white_good|]. apply Forall_app. split; [exact (goodAll_name k K)|].
      apply Forall_app. split; [now apply white_good|]. apply Forall_app. split; [repeat constructor|]. apply Forall_app. split; [now apply white_good|]. apply Forall_app. split; [constructor; [exact Gq|constructor]|].
      apply Forall_app. split; [|repeat constructor]. clear - V. induction V; [constructor|]. cbn [List.concat]. apply Forall_app. split; [eapply value_char_good; eassumption|assumption]. }
    rewrite <- !app_assoc. cbn [app]. rewrite (run_to_value tag attrs) by assumption. cbn [run]. unfold step at 1. rewrite (good_xml q Gq), Sq, Qq. unfold still. rewrite (run_value_chars _ _ _ _ _ _ v) by assumption.
    cbn [app run]. unfold step. change (isXmlChar "<") with true. rewrite Lq. reflexivity.
  - assert (G : good (chars nm)) by exact (goodAll_name nm Nm). rewrite !chars_app. split.
    { apply Sn; [|discriminate]. apply Forall_app. split; [repeat constructor|]. apply Forall_app. split; [exact G|repeat constructor]. }
    rewrite <- !app_assoc. cbn [chars list_ascii_of_string app run]. fold (chars nm). unfold step at 1. change (isXmlChar "&") with true. change (Ascii.eqb "&" "<") with false. change (Ascii.eqb "&" "&") with true. cbn [fst].
    destruct fs as [|f fs]; [reflexivity|]. unfold still. rewrite run_ref.
    + cbn [run]. unfold step. change (isXmlChar ";") with true. change (Ascii.eqb ";" ";") with true. cbv iota. unfold name. rewrite app_nil_r, rev_involutive, text_chars, (unknown_name nm Nm U). reflexivity.
    + destruct (name_chars nm Nm) as (x & t & -> & Hx & Gx & Ht). constructor; [split; [exact Gx|]; apply Ascii.eqb_neq; intros ->; discriminate|]. eapply Forall_impl; [|exact Ht].
      intros y [Hy Gy]. split; [exact Gy|]. apply Ascii.eqb_neq. intros ->. discriminate.
  - apply plain_all in P. apply plain_good in Pa. split.
    { apply Sn; [|discriminate]. apply Forall_app. split; [repeat constructor|]. apply Forall_app. split; [exact P|]. apply Forall_app. split; [repeat constructor|]. constructor; [exact Pa|constructor]. }
    rewrite <- !app_assoc. transitivity (run (CommentText 0) (fs, root) (c ++ chars "--" ++ a :: rest)); [reflexivity|]. rewrite run_dashes; [|exact P|lia|exact W].
    cbn [run]. unfold step. rewrite (good_xml a Pa). now rewrite (proj2 (Ascii.eqb_neq a _) Na).
  - split; [exists [], a; repeat split; [constructor|now right]|]. cbn [app run]. unfold step. now rewrite (control_xml a C).
  - assert (Ga : goodText a = true) by (apply good_text; now left). split; [apply Sn; [constructor; [exact Ga|constructor]|discriminate]|].
    destruct fs; [|discriminate]. cbn [app run]. unfold step. rewrite (good_xml a Ga), (proj2 (Ascii.eqb_neq a _) A2). destruct (Ascii.eqb a "&"); [reflexivity|]. cbn [addText]. now rewrite (printable_space a P A1).
  - destruct (proj1 elements_spelled e l E) as (G & d & _ & Rd). split.
    { apply Sn; [exact G|]. destruct E; discriminate. }
    rewrite Rd. destruct fs; [|discriminate]. cbn [putElem]. specialize (R eq_refl). now destruct root.
Qed.

Lemma lineEnds_snoc g c rest : good g -> (goodText c = true \/ control c) -> lineEnds ((g ++ [c]) ++ rest) = (g ++ [c]) ++ lineEnds rest.
Proof.
  intros G C. rewrite <- !app_assoc, lineEnds_app by exact G. f_equal. cbn [app lineEnds]. replace (Ascii.eqb c "013") with false; [reflexivity|]. symmetry. destruct C as [C|C]; [now apply good_cr|].
  apply Ascii.eqb_neq. intros ->. destruct C as (_ & _ & _ & C). now apply C.
Qed.
Lemma broken_refused tags ended l b rest : begun tags ended l -> broken tags ended b -> etreeParse (text (l ++ b ++ rest)) = None.
Proof.
  intros B Br. destruct (begun_run tags ended l B) as (G & fs & root & F & _ & R & H). destruct (broken_run tags ended b Br fs root (lineEnds rest) F R) as ((g & c & E & Gg & Gc) & N).
  unfold etreeParse, parseDom. rewrite chars_text, lineEnds_app by exact G. replace (lineEnds (b ++ rest)) with (b ++ lineEnds rest) by (rewrite E; symmetry; now apply lineEnds_snoc).
  now rewrite H, N.
Qed.

(** * Cut files *)

Lemma step_root m p a m' p' d : step m p a = Some (m', p') -> snd p = Some d -> snd p' = Some d.
Proof.
  assert (A : forall c p q, addText c p = Some q -> snd p = Some d -> snd q = Some d) by (intros c q q' H; now rewrite (add_root c q q' H)).
  assert (O : forall t as_ p q, openTag t as_ p = Some q -> snd p = Some d -> snd q = Some d).
  { intros t as_ q q' H. unfold openTag in H. destruct (distinct _); [|discriminate]. injection H as <-. exact (fun x => x). }
  assert (P : forall x p q, putElem x p = Some q -> snd p = Some d -> snd q = Some d).
  { intros x [[|f fs] [r|]] q H; cbn [putElem] in H; try discriminate; injection H as <-; cbn; congruence. }
  assert (C : forall t p q, closeTag t p = Some q -> snd p = Some d -> snd q = Some d).
  { intros t [[|f fs] r] q H; cbn [closeTag] in H; [discriminate|]. destruct (String.eqb _ _); [|discriminate]. exact (P _ _ _ H). }
  assert (I : forall t as_ sp m' p', inTag t as_ sp a p = Some (m', p') -> snd p = Some d -> snd p' = Some d).
  { intros t as_ sp m2 p2 H. unfold inTag, still, within in H. destruct (isXmlSpace a); [injection H as _ <-; auto|]. destruct (Ascii.eqb a ">").
    - destruct (openTag t (rev as_) p) as [q|] eqn:E; [|discriminate]. injection H as _ <-. exact (O _ _ _ _ E).
    - destruct (Ascii.eqb a "/"); [injection H as _ <-; auto|]. destruct (sp && nameStart a); [injection H as _ <-; auto|discriminate]. }
  unfold step, still, within. destruct (isXmlChar a); [|discriminate]. intros H S.
  destruct m; repeat match type of H with
    | Some _ = Some _ => injection H as _ <-; exact S
    | None = Some _ => discriminate
    | inTag _ _ _ _ _ = Some _ => exact (I _ _ _ _ _ H S)
    | match addText ?c ?q with _ => _ end = _ => let E := fresh in destruct (addText c q) eqn:E; [injection H as _ <-; exact (A _ _ _ E S)|discriminate]
    | match closeTag ?c ?q with _ => _ end = _ => let E := fresh in destruct (closeTag c q) eqn:E; [injection H as _ <-; exact (C _ _ _ E S)|discriminate]
    | (if ?x then _ else _) = _ => destruct x
    | match fst p with _ => _ end = _ => destruct (fst p)
    | match reference ?x with _ => _ end = _ => destruct (reference x)
    end.
  - destruct (openTag tag (rev as_) p) as [q|] eqn:E; [|discriminate]. destruct (closeTag tag q) as [q'|] eqn:E'; [|discriminate]. injection H as _ <-. exact (C _ _ _ E' (O _ _ _ _ E S)).
  - destruct dashes as [|[|[|dashes]]]; try (injection H as _ <-; exact S). destruct (Ascii.eqb a ">"); [injection H as _ <-; exact S|discriminate].
  - match type of H with match match ?n with _ => _ end with _ => _ end = _ => destruct n as [q|] eqn:E; [|discriminate] end.
    destruct (addText a q) as [q'|] eqn:E'; [|discriminate]. injection H as _ <-. apply (A _ _ _ E'). clear E' q'. revert q E. induction brackets as [|k IH]; intros q E; [injection E as <-; exact S|].
    cbn [Nat.iter nat_rect] in E. match type of E with match ?n with _ => _ end = _ => destruct n as [q2|] eqn:E2; [|discriminate] end. exact (A _ _ _ E (IH q2 E2)).
Qed.
Lemma run_root l : forall m p m' p' d, run m p l = Some (m', p') -> snd p = Some d -> snd p' = Some d.
Proof.
  induction l as [|a l IH]; intros m p m' p' d H S; [injection H as _ <-; exact S|]. cbn [run] in H. destruct (step m p a) as [[m1 p1]|] eqn:E; [|discriminate].
  exact (IH _ _ _ _ _ H (step_root _ _ _ _ _ _ E S)).
Qed.
(** Before the last character of its root a document has no root. *)
Lemma root_open e l : elemSpelled e l -> exists l' m p, l = l' ++ [">"%char] /\ run Content ([], None) l' = Some (m, p) /\ snd p = None.
Proof.
  intro E. destruct E as [tag attrs s children start t body w St Tx C W|tag attrs start St].
  - destruct (start_facts _ _ _ St) as [T K].
    assert (B : begun [tag] false ([] ++ ["<"%char] ++ start ++ [">"%char] ++ t ++ body)).
    { apply (begun_element [] [] tag attrs start s t children body); try assumption. apply (begun_outside [] []); [now left|constructor]. }
    destruct (begun_run _ _ _ B) as (_ & fs & root & F & R & _ & H). specialize (R eq_refl). subst root. rewrite app_nil_l in H.
    exists (["<"%char] ++ start ++ [">"%char] ++ t ++ body ++ chars "</" ++ chars tag ++ w). destruct (name_chars tag T) as (a & u & Et & Ha & Hg & Hu).
    assert (Cl : exists m, run Content (fs, None) (chars "</" ++ chars tag ++ w) = Some (m, (fs, None))).
    { cbn [chars list_ascii_of_string app run]. fold (chars tag). unfold step at 1. change (isXmlChar "<") with true. change (Ascii.eqb "<" "<") with true. cbv iota. unfold still. cbn [run]. unfold step at 1. change (isXmlChar "/") with true. change (Ascii.eqb "/" "/") with true. cbv iota. unfold still.
      rewrite Et. cbn [app run]. unfold step at 1. rewrite (good_xml a Hg), Ha. unfold still. rewrite run_close_name by exact Hu. apply white_spaces in W.
      destruct W as [|b w [Hb Gb] Hw]; [eexists; reflexivity|]. cbn [run]. unfold step at 1. rewrite (good_xml b Gb), (space_not_name b Hb), Hb. unfold still. rewrite <- (app_nil_r w), run_close_spaces by exact Hw. eexists; reflexivity. }
    destruct Cl as (m & Cl). exists m, (fs, None). split; [rewrite <- !app_assoc; reflexivity|]. split; [|reflexivity].
    specialize (H (chars "</" ++ chars tag ++ w)). rewrite <- !app_assoc in H. rewrite H. exact Cl.
  - destruct (run_start_spelled _ _ _ St) as (_ & m & S & R). exists (["<"%char] ++ start ++ ["/"%char]), (Slash tag (rev attrs)), ([], None). split; [rewrite <- !app_assoc; reflexivity|]. split; [|reflexivity].
    cbn [app]. rewrite R. cbn [run]. rewrite (S _ "/"%char) by reflexivity. reflexivity.
Qed.
Lemma cut_refused l e root rest k : begun [] false l -> elemSpelled e root -> k < List.length (l ++ root) ->
  etreeParse (text (firstn k (l ++ root ++ rest))) = None.
Proof.
  intros B E K. destruct (begun_run _ _ _ B) as (G & fs & r & F & R & _ & H). destruct fs; [|discriminate]. specialize (R eq_refl). subst r.
  destruct (root_open e root E) as (l' & m & p & Er & Rl & Np). destruct (proj1 elements_spelled e root E) as (Ge & _).
  rewrite app_assoc, firstn_app. replace (k - List.length (l ++ root)) with 0 by lia. rewrite firstn_O, app_nil_r.
  assert (Gu : good (firstn k (l ++ root))). { apply Forall_forall. intros a Ha. assert (In a (l ++ root)) by (rewrite <- (firstn_skipn k (l ++ root)); apply in_or_app; now left). assert (Ga : good (l ++ root)) by (apply Forall_app; now split). rewrite Forall_forall in Ga. now apply Ga. }
  unfold etreeParse, parseDom. rewrite chars_text, lineEnds_same by exact Gu.
  assert (Sp : exists v, l ++ l' = firstn k (l ++ root) ++ v).
  { exists (skipn k (l ++ l')). rewrite Er, app_assoc. rewrite Er, app_length, app_length in K. cbn [List.length] in K. rewrite firstn_app, app_length. replace (k - (List.length l + List.length l')) with 0 by lia.
    rewrite firstn_O, app_nil_r. symmetry. apply firstn_skipn. }
  destruct Sp as (v & Sp). assert (Rn : run Content ([], None) (l ++ l') = Some (m, p)) by (rewrite H; exact Rl). rewrite Sp, run_app in Rn.
  destruct (run Content ([], None) (firstn k (l ++ root))) as [[m1 [fs1 [d|]]]|]; [| |reflexivity].
  - exfalso. pose proof (run_root v m1 (fs1, Some d) m p d Rn eq_refl). congruence.
  - destruct m1; try reflexivity. now destruct fs1.
Qed.

Section Files.
  Context {T : Type} {NM : Num T} {X : NumText T} (zip : string -> string) (unzip : string -> option string).
  Lemma unparsed_opens limit c (fs : disk string) strict p t : fs p = Some t -> unzip t = None -> etreeParse t = None ->
    openList (T := T) (textFiles zip unzip) (S limit) c fs strict p = Err ParseError.
  Proof. intros F U P. unfold openList. cbn [readFile]. rewrite F. cbn [gunzip parseXml textFiles]. rewrite U, P. now destruct (duiker_on c). Qed.
  Lemma broken_opens limit c (fs : disk string) strict p tags ended l b rest : begun tags ended l -> broken tags ended b ->
    let t := text (l ++ b ++ rest) in fs p = Some t -> unzip t = None ->
    openList (T := T) (textFiles zip unzip) (S limit) c fs strict p = Err ParseError.
  Proof. intros B Br t F U. apply (unparsed_opens limit c fs strict p t F U). now apply (broken_refused tags ended). Qed.
  Lemma cut_opens limit c (fs : disk string) strict p l e root rest k : begun [] false l -> elemSpelled e root -> k < List.length (l ++ root) ->
    let t := text (firstn k (l ++ root ++ rest)) in fs p = Some t -> unzip t = None ->
    openList (T := T) (textFiles zip unzip) (S limit) c fs strict p = Err ParseError.
  Proof. intros B E K t F U. apply (unparsed_opens limit c fs strict p t F U). now apply (cut_refused l e). Qed.
End Files.
