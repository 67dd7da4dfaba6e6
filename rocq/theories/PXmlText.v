(** Lemmas on the text of documents. *)
From Coq Require Import List String Ascii Lia NArith Bool.
From Verif Require Import SpecXmlText PNumText PXmlRead PIndent.
Import ListNotations.
Local Open Scope string_scope.
Local Open Scope list_scope.

(** * Characters *)

Definition goodText (a : ascii) : bool := let n := N_of_ascii a in ((32 <=? n) && (n <=? 126) || (n =? 9) || (n =? 10))%N.
Lemma good_text a : printable a \/ isTab a \/ isLineFeed a -> goodText a = true.
Proof.
  unfold printable, isTab, isLineFeed, goodText. intros [[H1 H2]|[->| ->]]; [|reflexivity|reflexivity].
  apply N.leb_le in H1, H2. cbv zeta. now rewrite H1, H2.
Qed.
Lemma good_xml a : goodText a = true -> isXmlChar a = true.
Proof.
  unfold goodText, isXmlChar, isXmlSpace. cbv zeta. rewrite !orb_true_iff, !andb_true_iff, !N.leb_le, !N.eqb_eq. intros [[[H1 H2]|H]|H]; [right; lia|left; left; left; left; exact H|left; left; left; right; exact H].
Qed.
Lemma good_cr a : goodText a = true -> Ascii.eqb a "013" = false.
Proof. intro H. destruct (Ascii.eqb_spec a "013"); [subst; discriminate|reflexivity]. Qed.
Lemma good_ascii a : goodText a = true -> (N_of_ascii a <? 128)%N = true.
Proof. unfold goodText. cbv zeta. rewrite !orb_true_iff, !andb_true_iff, !N.leb_le, !N.eqb_eq, N.ltb_lt. lia. Qed.

Lemma in_check {A} (P : A -> bool) l : forallb P l = true -> forall a, In a l -> P a = true.
Proof. intro H. now apply forallb_forall. Qed.
Lemma first_start a : In a (chars firstLetters) -> nameStart a = true /\ Ascii.eqb a ":" = false /\ goodText a = true.
Proof.
  intro H. pose proof (in_check (fun a => nameStart a && negb (Ascii.eqb a ":") && goodText a) (chars firstLetters) eq_refl a H) as C.
  cbv beta in C. rewrite !andb_true_iff, negb_true_iff in C. tauto.
Qed.
Lemma later_char a : In a (chars laterLetters) -> nameChar a = true /\ Ascii.eqb a ":" = false /\ goodText a = true.
Proof.
  intro H. pose proof (in_check (fun a => nameChar a && negb (Ascii.eqb a ":") && goodText a) (chars laterLetters) eq_refl a H) as C.
  cbv beta in C. rewrite !andb_true_iff, negb_true_iff in C. tauto.
Qed.
Lemma name_facts s : xmlName s -> exists a t, chars s = a :: t /\ nameStart a = true /\ Forall (fun b => nameChar b = true) t /\
  Forall (fun b => Ascii.eqb b ":" = false) (chars s) /\ Forall (fun b => goodText b = true) (chars s) /\ s <> "xmlns".
Proof.
  intros [H1 H2]. destruct (chars s) as [|a t]; [contradiction|]. destruct H1 as [Ha Ht]. exists a, t.
  pose proof (first_start a Ha) as (A1 & A2 & A3).
  assert (Tl : Forall (fun b => nameChar b = true /\ Ascii.eqb b ":" = false /\ goodText b = true) t).
  { eapply Forall_impl; [|exact Ht]. intros b Hb. now apply later_char. }
  split; [reflexivity|]. split; [exact A1|]. split; [eapply Forall_impl; [|exact Tl]; intros b Hb; apply Hb|].
  split; [constructor; [exact A2|eapply Forall_impl; [|exact Tl]; intros b Hb; apply Hb]|].
  split; [constructor; [exact A3|eapply Forall_impl; [|exact Tl]; intros b Hb; apply Hb]|exact H2].
Qed.

(** * The machine *)

Lemma run_app l1 : forall m p l2, run m p (l1 ++ l2) = match run m p l1 with Some (m, p) => run m p l2 | None => None end.
Proof. induction l1 as [|a l1 IH]; intros; [reflexivity|]. cbn [app run]. destruct (step m p a) as [[m' p']|]; [apply IH|reflexivity]. Qed.

Lemma run_open p l rest : forall n, Forall (fun b => nameChar b = true /\ goodText b = true) l ->
  run (OpenName n) p (l ++ rest) = run (OpenName (rev l ++ n)) p rest.
Proof.
  induction l as [|a l IH]; intros n H; [reflexivity|]. inversion_clear H as [|? ? [Ha Hg] Hl]. cbn [app run]. unfold step. rewrite (good_xml a Hg), Ha. unfold still.
  rewrite IH by exact Hl. cbn [rev]. now rewrite <- app_assoc.
Qed.
Lemma run_attr_name p tag as_ l rest : forall n, Forall (fun b => nameChar b = true /\ goodText b = true) l ->
  run (AttrName tag as_ n) p (l ++ rest) = run (AttrName tag as_ (rev l ++ n)) p rest.
Proof.
  induction l as [|a l IH]; intros n H; [reflexivity|]. inversion_clear H as [|? ? [Ha Hg] Hl]. cbn [app run]. unfold step. rewrite (good_xml a Hg), Ha. unfold still.
  rewrite IH by exact Hl. cbn [rev]. now rewrite <- app_assoc.
Qed.
Lemma run_close_name p l rest : forall n, Forall (fun b => nameChar b = true /\ goodText b = true) l ->
  run (CloseName n) p (l ++ rest) = run (CloseName (rev l ++ n)) p rest.
Proof.
  induction l as [|a l IH]; intros n H; [reflexivity|]. inversion_clear H as [|? ? [Ha Hg] Hl]. cbn [app run]. unfold step. rewrite (good_xml a Hg), Ha. unfold still.
  rewrite IH by exact Hl. cbn [rev]. now rewrite <- app_assoc.
Qed.
Lemma name_rev s : name (rev (chars s)) = s.
Proof. unfold name. rewrite rev_involutive. apply text_chars. Qed.

(** In a tag named [tag] after the attributes [as_]. *)
Definition tagState tag as_ (m : mode) : Prop :=
  forall p a, nameChar a = false -> goodText a = true -> step m p a = inTag tag as_ false a p.
Lemma open_state s : tagState s [] (OpenName (rev (chars s))).
Proof. intros p a Ha Hg. unfold step. now rewrite (good_xml a Hg), Ha, name_rev. Qed.
Lemma in_state s as_ : tagState s as_ (InTag s as_ false).
Proof. intros p a Ha Hg. unfold step. now rewrite (good_xml a Hg). Qed.

Lemma name_chars s : xmlName s -> exists a t, chars s = a :: t /\ nameStart a = true /\ goodText a = true /\
  Forall (fun b => nameChar b = true /\ goodText b = true) t.
Proof.
  intro H. destruct (name_facts s H) as (a & t & E & Ha & Ht & _ & G & _). exists a, t. rewrite E in G. inversion_clear G as [|? ? Ga Gt].
  repeat split; try assumption. clear E. induction Ht; inversion_clear Gt; constructor; auto.
Qed.
Lemma nameStart_not a : nameStart a = true -> Ascii.eqb a "/" = false /\ Ascii.eqb a "!" = false /\ Ascii.eqb a "?" = false /\
  isXmlSpace a = false /\ Ascii.eqb a ">" = false /\ nameChar a = true.
Proof.
  intro H. repeat split; try (match goal with |- Ascii.eqb a ?c = false => destruct (Ascii.eqb_spec a c); [subst; discriminate|reflexivity] end).
  - destruct (isXmlSpace a) eqn:E; [|reflexivity]. unfold isXmlSpace in E. cbv zeta in E. rewrite !orb_true_iff, !N.eqb_eq in E.
    rewrite <- (ascii_N_embedding a) in H. destruct E as [[[E|E]|E]|E]; rewrite E in H; discriminate.
  - unfold nameChar. now rewrite H.
Qed.

Lemma run_tag s p rest : xmlName s -> run Content p (chars ("<" ++ s)%string ++ rest) = run (OpenName (rev (chars s))) p rest.
Proof.
  intro H. destruct (name_chars s H) as (a & t & E & Ha & Hg & Ht). rewrite chars_app. cbn [chars list_ascii_of_string app run]. unfold step at 1. cbn [isXmlChar]. change (isXmlChar "<") with true.
  change (Ascii.eqb "<" "<") with true. cbv iota. unfold still. rewrite E. cbn [app run]. destruct (nameStart_not a Ha) as (N1 & N2 & N3 & _ & _ & _).
  unfold step. rewrite (good_xml a Hg), N1, N2, N3, Ha. unfold still. rewrite run_open by exact Ht. reflexivity.
Qed.
Lemma run_close s fs root rest f : xmlName s -> f_tag f = s ->
  run Content (f :: fs, root) (chars ("</" ++ s ++ ">")%string ++ rest) =
  match putElem (DElem s (f_attrs f) (rev (f_done (settle f)))) (fs, root) with Some p => run Content p rest | None => None end.
Proof.
  intros H Ef. destruct (name_chars s H) as (a & t & E & Ha & Hg & Ht). rewrite !chars_app, <- !app_assoc. cbn [chars list_ascii_of_string app run]. unfold step at 1. change (isXmlChar "<") with true.
  change (Ascii.eqb "<" "<") with true. cbv iota. unfold still. cbn [app run]. unfold step at 1. change (isXmlChar "/") with true. change (Ascii.eqb "/" "/") with true. cbv iota. unfold still.
  fold (chars s). rewrite E. cbn [app run]. unfold step at 1. rewrite (good_xml a Hg), Ha. unfold still. rewrite run_close_name by exact Ht.
  cbn [run]. unfold step. change (isXmlChar ">") with true. change (nameChar ">") with false. change (isXmlSpace ">") with false. change (Ascii.eqb ">" ">") with true. cbv iota.
  replace (name (rev t ++ [a])) with s by (unfold name; rewrite rev_app_distr, rev_involutive; cbn [rev app]; rewrite <- E; symmetry; apply text_chars).
  unfold closeTag. rewrite Ef, String.eqb_refl. unfold within. destruct (putElem _ _) as [q|]; reflexivity.
Qed.

(** * Attributes *)

Definition domNorm (a : ascii) : ascii := if Ascii.eqb a "009" || Ascii.eqb a "010" then " "%char else a.
Definition attribNorm (a : ascii) : ascii := if Ascii.eqb a "009" then " "%char else a.
Definition normText (g : ascii -> ascii) (s : string) : string := text (map g (chars s)).

Definition valueEscape (f : ascii -> list ascii) (g : ascii -> ascii) : Prop :=
  forall a tag as_ k v p rest, goodText a = true ->
    run (Value tag as_ k """"%char v) p (f a ++ rest) = run (Value tag as_ k """"%char (g a :: v)) p rest.
Lemma space_good a : goodText a = true -> isXmlSpace a = Ascii.eqb a "009" || Ascii.eqb a "010" || Ascii.eqb a " ".
Proof.
  intro H. unfold isXmlSpace. cbv zeta.
  assert (K : forall b, (N_of_ascii a =? N_of_ascii b)%N = Ascii.eqb a b).
  { intro b. destruct (Ascii.eqb_spec a b) as [->|D]; [apply N.eqb_refl|]. apply N.eqb_neq. intro E. apply D. rewrite <- (ascii_N_embedding a), <- (ascii_N_embedding b), E. reflexivity. }
  change 9%N with (N_of_ascii "009"). change 10%N with (N_of_ascii "010"). change 13%N with (N_of_ascii "013"). change 32%N with (N_of_ascii " "). rewrite !K.
  rewrite (good_cr a H), orb_false_r. reflexivity.
Qed.
Lemma value_plain a tag as_ k v p rest : goodText a = true -> Ascii.eqb a """" = false -> Ascii.eqb a "<" = false -> Ascii.eqb a "&" = false ->
  run (Value tag as_ k """"%char v) p (a :: rest) = run (Value tag as_ k """"%char (domNorm a :: v)) p rest.
Proof.
  intros H Q L A. cbn [run]. unfold step. rewrite (good_xml a H), Q, L, A. unfold still. rewrite (space_good a H). unfold domNorm.
  destruct (Ascii.eqb_spec a " ") as [->|]; [reflexivity|]. now rewrite orb_false_r.
Qed.
Lemma dom_value : valueEscape domChar domNorm.
Proof.
  intros a tag as_ k v p rest H. unfold domChar. destruct (Ascii.eqb a """") eqn:Q; [apply Ascii.eqb_eq in Q; subst; reflexivity|].
  unfold cdataChar. destruct (Ascii.eqb a "&") eqn:A; [apply Ascii.eqb_eq in A; subst; reflexivity|].
  destruct (Ascii.eqb a "<") eqn:L; [apply Ascii.eqb_eq in L; subst; reflexivity|].
  destruct (Ascii.eqb a ">") eqn:G; [apply Ascii.eqb_eq in G; subst; reflexivity|].
  cbn [app]. now apply value_plain.
Qed.
Lemma attrib_value : valueEscape attribChar attribNorm.
Proof.
  intros a tag as_ k v p rest H. unfold attribChar. destruct (Ascii.eqb a """") eqn:Q; [apply Ascii.eqb_eq in Q; subst; reflexivity|].
  destruct (Ascii.eqb a "010") eqn:F; [apply Ascii.eqb_eq in F; subst; reflexivity|].
  unfold cdataChar. destruct (Ascii.eqb a "&") eqn:A; [apply Ascii.eqb_eq in A; subst; reflexivity|].
  destruct (Ascii.eqb a "<") eqn:L; [apply Ascii.eqb_eq in L; subst; reflexivity|].
  destruct (Ascii.eqb a ">") eqn:G; [apply Ascii.eqb_eq in G; subst; reflexivity|].
  cbn [app]. rewrite value_plain by assumption. unfold domNorm, attribNorm. now rewrite F, orb_false_r.
Qed.
Lemma run_value f g : valueEscape f g -> forall tag as_ k p rest s v, Forall (fun a => goodText a = true) (chars s) ->
  run (Value tag as_ k """"%char v) p (chars (escaping f s) ++ rest) = run (Value tag as_ k """"%char (rev (map g (chars s)) ++ v)) p rest.
Proof.
  intros F tag as_ k p rest s. unfold escaping. rewrite chars_text. induction (chars s) as [|a l IH]; intros v H; [reflexivity|]. inversion_clear H as [|? ? Ha Hl].
  cbn [flat_map map rev]. rewrite <- app_assoc, F by exact Ha. rewrite IH by exact Hl. now rewrite <- app_assoc.
Qed.

Definition normAttrs (g : ascii -> ascii) (attrs : list (string * string)) : list (string * string) :=
  map (fun kv => (fst kv, normText g (snd kv))) attrs.
Definition attrOk (kv : string * string) : Prop := xmlName (fst kv) /\ Forall (fun a => goodText a = true) (chars (snd kv)).

Lemma concat_cons' s l : String.concat "" (s :: l) = (s ++ String.concat "" l)%string.
Proof. destruct l; [|reflexivity]. cbn [String.concat]. rewrite <- (text_chars (s ++ "")), chars_app, app_nil_r. symmetry. apply text_chars. Qed.

Lemma run_attrs f g : valueEscape f g -> forall tag attrs as_ m, Forall attrOk attrs -> tagState tag as_ m ->
  exists m', tagState tag (rev (normAttrs g attrs) ++ as_) m' /\
    forall p rest, run m p (chars (attrsText f attrs) ++ rest) = run m' p rest.
Proof.
  intros F tag attrs. unfold attrsText. induction attrs as [|[k v] attrs IH]; intros as_ m H S.
  - exists m. split; [exact S|reflexivity].
  - inversion_clear H as [|? ? [Hk Hv] Ht]. cbn [fst snd] in *.
    destruct (IH ((k, normText g v) :: as_) (InTag tag ((k, normText g v) :: as_) false) Ht (in_state _ _)) as (m' & S' & R').
    exists m'. split; [cbn [normAttrs map rev fst snd]; now rewrite <- app_assoc|].
    intros p rest. cbn [map]. rewrite concat_cons', chars_app, <- app_assoc. rewrite <- (R' p rest). clear R' S' IH Ht.
    set (more := chars (String.concat "" _) ++ rest). clearbody more. rewrite !chars_app, <- !app_assoc. cbn [chars list_ascii_of_string app]. fold (chars k). fold (chars (escaping f v)).
    cbn [run]. rewrite (S p " "%char) by reflexivity. unfold inTag. change (isXmlSpace " ") with true. cbv iota. unfold still.
    destruct (name_chars k Hk) as (a & t & E & Ha & Hg & Hl). rewrite E. cbn [app run]. destruct (nameStart_not a Ha) as (N1 & _ & _ & N4 & N5 & _).
    unfold step at 1. rewrite (good_xml a Hg). unfold inTag. rewrite N4, N5, N1, Ha. cbn [andb]. unfold still. rewrite run_attr_name by exact Hl.
    cbn [run]. unfold step at 1. change (isXmlChar "=") with true. change (nameChar "=") with false. change (Ascii.eqb "=" "=") with true. cbv iota. unfold still.
    cbn [run]. unfold step at 1. change (isXmlChar """") with true. change (isXmlSpace """") with false. change (Ascii.eqb """" """") with true. cbn [orb]. unfold still.
    rewrite (run_value f g F) by exact Hv. cbn [run]. unfold step at 1. change (isXmlChar """") with true. change (Ascii.eqb """" """") with true. cbv iota. unfold still.
    replace (name (rev t ++ [a])) with k by (unfold name; rewrite rev_app_distr, rev_involutive; cbn [rev app]; rewrite <- E; symmetry; apply text_chars).
    replace (name (rev (map g (chars v)) ++ [])) with (normText g v) by (unfold name; now rewrite app_nil_r, rev_involutive).
    reflexivity.
Qed.

(** * Text *)

Definition withText (f : frame) (t : list ascii) : frame :=
  {| f_tag := f_tag f; f_attrs := f_attrs f; f_done := f_done f; f_text := t ++ f_text f |}.
Definition contentEscape (f : ascii -> list ascii) : Prop :=
  forall a fr fs root rest, goodText a = true ->
    run Content (fr :: fs, root) (f a ++ rest) = run Content (withText fr [a] :: fs, root) rest.
Lemma content_plain a fr fs root rest : goodText a = true -> Ascii.eqb a "<" = false -> Ascii.eqb a "&" = false ->
  run Content (fr :: fs, root) (a :: rest) = run Content (withText fr [a] :: fs, root) rest.
Proof. intros H L A. cbn [run]. unfold step. rewrite (good_xml a H), L, A. reflexivity. Qed.
Lemma cdata_content : contentEscape cdataChar.
Proof.
  intros a fr fs root rest H. unfold cdataChar. destruct (Ascii.eqb a "&") eqn:A; [apply Ascii.eqb_eq in A; subst; reflexivity|].
  destruct (Ascii.eqb a "<") eqn:L; [apply Ascii.eqb_eq in L; subst; reflexivity|].
  destruct (Ascii.eqb a ">") eqn:G; [apply Ascii.eqb_eq in G; subst; reflexivity|]. cbn [app]. now apply content_plain.
Qed.
Lemma dom_content : contentEscape domChar.
Proof.
  intros a fr fs root rest H. unfold domChar. destruct (Ascii.eqb a """") eqn:Q; [apply Ascii.eqb_eq in Q; subst; reflexivity|]. now apply cdata_content.
Qed.
Lemma run_text f : contentEscape f -> forall fs root rest s fr, Forall (fun a => goodText a = true) (chars s) ->
  run Content (fr :: fs, root) (chars (escaping f s) ++ rest) = run Content (withText fr (rev (chars s)) :: fs, root) rest.
Proof.
  intros F fs root rest s. unfold escaping. rewrite chars_text. induction (chars s) as [|a l IH]; intros fr H; [now destruct fr|]. inversion_clear H as [|? ? Ha Hl].
  cbn [flat_map rev]. rewrite <- app_assoc, F by exact Ha. rewrite IH by exact Hl. unfold withText. cbn [f_tag f_attrs f_done f_text]. now rewrite <- app_assoc.
Qed.
Lemma run_white fs root rest l : forall fr, Forall (fun a => isXmlSpace a = true /\ goodText a = true) l ->
  run Content (fr :: fs, root) (l ++ rest) = run Content (withText fr (rev l) :: fs, root) rest.
Proof.
  induction l as [|a l IH]; intros fr H; [now destruct fr|]. inversion_clear H as [|? ? [Ha Hg] Hl]. cbn [app rev].
  rewrite content_plain; [|exact Hg| |].
  - rewrite IH by exact Hl. unfold withText. cbn [f_tag f_attrs f_done f_text]. now rewrite <- app_assoc.
  - destruct (Ascii.eqb_spec a "<"); [subst; discriminate|reflexivity].
  - destruct (Ascii.eqb_spec a "&"); [subst; discriminate|reflexivity].
Qed.
Lemma run_white_top root rest l : Forall (fun a => isXmlSpace a = true /\ goodText a = true) l ->
  run Content ([], root) (l ++ rest) = run Content ([], root) rest.
Proof.
  induction l as [|a l IH]; intro H; [reflexivity|]. inversion_clear H as [|? ? [Ha Hg] Hl]. cbn [app run]. unfold step. rewrite (good_xml a Hg).
  replace (Ascii.eqb a "<") with false by (symmetry; destruct (Ascii.eqb_spec a "<"); [subst; discriminate|reflexivity]).
  replace (Ascii.eqb a "&") with false by (symmetry; destruct (Ascii.eqb_spec a "&"); [subst; discriminate|reflexivity]).
  cbn [addText]. rewrite Ha. unfold within. now apply IH.
Qed.

Lemma distinct_nodup l : NoDup l -> distinct l = true.
Proof.
  induction 1 as [|x l H N IH]; [reflexivity|]. cbn [distinct]. rewrite IH, andb_true_r, negb_true_iff. apply not_true_is_false. intro E.
  apply existsb_exists in E as (y & Hy & E). apply String.eqb_eq in E. now subst.
Qed.
Lemma norm_keys g attrs : map fst (normAttrs g attrs) = map fst attrs.
Proof. unfold normAttrs. rewrite map_map. reflexivity. Qed.

(** The tag up to ">". *)
Lemma run_start f g tag attrs p rest : valueEscape f g -> xmlName tag -> Forall attrOk attrs -> NoDup (map fst attrs) ->
  run Content p (chars ("<" ++ tag ++ attrsText f attrs ++ ">")%string ++ rest) =
  run Content ({| f_tag := tag; f_attrs := normAttrs g attrs; f_done := []; f_text := [] |} :: fst p, snd p) rest.
Proof.
  intros F Hn Ha Hd.
  destruct (run_attrs f g F tag attrs [] (OpenName (rev (chars tag))) Ha (open_state tag)) as (m & S & R).
  replace (chars ("<" ++ tag ++ attrsText f attrs ++ ">")%string) with (chars ("<" ++ tag)%string ++ chars (attrsText f attrs) ++ [">"%char]) by (rewrite !chars_app; cbn [chars list_ascii_of_string app]; reflexivity).
  rewrite <- !app_assoc, run_tag, R by exact Hn. cbn [app run]. rewrite (S p ">"%char) by reflexivity. unfold inTag. change (isXmlSpace ">") with false. change (Ascii.eqb ">" ">") with true. cbv iota.
  rewrite app_nil_r, rev_involutive. unfold openTag. rewrite norm_keys, distinct_nodup by exact Hd. reflexivity.
Qed.
(** The whole of an element without content, with or without a space before "/>". *)
Lemma run_empty f g tag attrs p rest (sp : bool) : valueEscape f g -> xmlName tag -> Forall attrOk attrs -> NoDup (map fst attrs) ->
  run Content p (chars ("<" ++ tag ++ attrsText f attrs ++ (if sp then " />" else "/>"))%string ++ rest) =
  match putElem (DElem tag (normAttrs g attrs) []) p with Some p => run Content p rest | None => None end.
Proof.
  intros F Hn Ha Hd.
  destruct (run_attrs f g F tag attrs [] (OpenName (rev (chars tag))) Ha (open_state tag)) as (m & S & R).
  replace (chars ("<" ++ tag ++ attrsText f attrs ++ (if sp then " />" else "/>"))%string) with (chars ("<" ++ tag)%string ++ chars (attrsText f attrs) ++ chars (if sp then " />" else "/>")) by (rewrite !chars_app; cbn [chars list_ascii_of_string app]; reflexivity).
  rewrite <- !app_assoc, run_tag, R by exact Hn.
  assert (Sl : run m p (chars (if sp then " />" else "/>") ++ rest) = run (Slash tag (rev (normAttrs g attrs))) p (">"%char :: rest)).
  { destruct sp; cbn [chars list_ascii_of_string app run].
    - rewrite (S p " "%char) by reflexivity. unfold inTag at 1. change (isXmlSpace " ") with true. cbv iota. unfold still. rewrite app_nil_r. reflexivity.
    - rewrite (S p "/"%char) by reflexivity. unfold inTag at 1. change (isXmlSpace "/") with false. change (Ascii.eqb "/" ">") with false. change (Ascii.eqb "/" "/") with true. cbv iota. unfold still. rewrite app_nil_r. reflexivity. }
  rewrite Sl. cbn [run]. unfold step. change (isXmlChar ">") with true. change (Ascii.eqb ">" ">") with true. cbv iota. rewrite rev_involutive. unfold openTag. rewrite norm_keys, distinct_nodup by exact Hd.
  cbn [closeTag f_tag f_attrs]. rewrite String.eqb_refl. cbn [settle f_text f_done rev]. destruct p as [fs root]. cbn [fst snd]. unfold within. destruct (putElem _ _); reflexivity.
Qed.
