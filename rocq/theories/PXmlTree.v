(** Documents printed and parsed again. *)
From Coq Require Import List String Ascii Lia NArith Bool.
From Verif Require Import SpecXmlText PNumText PXmlRead PIndent PXmlText.
Import ListNotations.
Local Open Scope string_scope.
Local Open Scope list_scope.

Lemma plain_eq tag attrs x ch : plainDocument (XElem tag attrs x ch) <->
  xmlName tag /\ NoDup (map fst attrs) /\ Forall (fun kv => xmlName (fst kv) /\ bodyText (snd kv)) attrs /\
  match x with None => True | Some s => s <> "" /\ bodyText s /\ ch = [] end /\ Forall plainDocument ch.
Proof.
  cbn [plainDocument].
  assert (E : (fix all (ch : list xelem) : Prop := match ch with [] => True | c :: t => plainDocument c /\ all t end) ch <-> Forall plainDocument ch).
  { induction ch as [|c ch IH]; [split; [constructor|exact (fun _ => I)]|]. rewrite Forall_cons_iff, IH. reflexivity. }
  rewrite E. reflexivity.
Qed.
Lemma body_good s : bodyText s -> Forall (fun a => goodText a = true) (chars s).
Proof. intro H. eapply Forall_impl; [|exact H]. intro a. apply good_text. Qed.
Lemma attrs_ok attrs : Forall (fun kv => xmlName (fst kv) /\ bodyText (snd kv)) attrs -> Forall attrOk attrs.
Proof. intro H. eapply Forall_impl; [|exact H]. intros kv [H1 H2]. split; [exact H1|now apply body_good]. Qed.

(** * ElementTree's text *)

Fixpoint domOf (e : xelem) : dom :=
  match e with
  | XElem tag attrs x ch => DElem tag (normAttrs attribNorm attrs) match x with Some s => [DText s] | None => map domOf ch end
  end.

Definition push (d : dom) (f : frame) : frame :=
  {| f_tag := f_tag f; f_attrs := f_attrs f; f_done := d :: f_done (settle f); f_text := [] |}.
Lemma put_push d f fs root : putElem d (f :: fs, root) = Some (push d f :: fs, root).
Proof. reflexivity. Qed.

Lemma run_serialize e : plainDocument e -> forall p rest,
  run Content p (chars (serialize e) ++ rest) = match putElem (domOf e) p with Some p => run Content p rest | None => None end.
Proof.
  induction e as [tag attrs x ch IH] using xelem_induction. intro P. apply plain_eq in P as (Hn & Hd & Ha & Hx & Hc). apply attrs_ok in Ha. intros p rest. cbn [serialize].
  destruct x as [s|].
  - destruct Hx as (Hs & Hb & ->). cbn [map String.concat domOf].
    replace (match s with "" => true | _ => false end) with false by (destruct s; [contradiction|reflexivity]). apply body_good in Hb.
    replace (chars _) with (chars ("<" ++ tag ++ attrsText attribChar attrs ++ ">")%string ++ chars (escaping cdataChar s) ++ chars ("</" ++ tag ++ ">")%string)
      by (rewrite !chars_app; cbn [chars list_ascii_of_string app]; rewrite <- ?app_assoc, ?app_nil_r; reflexivity).
    rewrite <- !app_assoc. rewrite (run_start _ _ _ _ _ _ attrib_value Hn Ha Hd), (run_text _ cdata_content) by exact Hb.
    rewrite run_close by (exact Hn || reflexivity). unfold settle, withText. cbn [f_tag f_attrs f_done f_text]. rewrite app_nil_r. destruct p as [fs root]. cbn [fst snd].
    replace (match rev (chars s) with [] => [] | t => [DText (text (rev t))] end) with [DText s]; [reflexivity|].
    destruct (rev (chars s)) as [|b l] eqn:E.
    + exfalso. apply Hs. destruct s; [reflexivity|]. cbn in E. destruct (rev (list_ascii_of_string s)); discriminate.
    + rewrite <- E, rev_involutive. now rewrite text_chars.
  - destruct ch as [|c0 ch0]; [apply (run_empty _ _ _ _ _ _ true attrib_value Hn Ha Hd)|]. set (ch := c0 :: ch0) in *. cbn [domOf]. clearbody ch.
    replace (chars _) with (chars ("<" ++ tag ++ attrsText attribChar attrs ++ ">")%string ++ chars (String.concat "" (map serialize ch)) ++ chars ("</" ++ tag ++ ">")%string)
      by (rewrite !chars_app; cbn [chars list_ascii_of_string app]; rewrite <- ?app_assoc; reflexivity).
    rewrite <- !app_assoc. rewrite (run_start _ _ _ _ _ _ attrib_value Hn Ha Hd).
    assert (K : forall fs root rest done, run Content ({| f_tag := tag; f_attrs := normAttrs attribNorm attrs; f_done := done; f_text := [] |} :: fs, root) (chars (String.concat "" (map serialize ch)) ++ rest) =
       run Content ({| f_tag := tag; f_attrs := normAttrs attribNorm attrs; f_done := rev (map domOf ch) ++ done; f_text := [] |} :: fs, root) rest).
    { clear - IH Hc. induction ch as [|c ch IHc]; intros fs root rest done; [reflexivity|]. inversion_clear IH as [|? ? I1 I2]. inversion_clear Hc as [|? ? C1 C2].
      cbn [map]. rewrite concat_cons', chars_app, <- app_assoc, (I1 C1), put_push. unfold push, settle. cbn [f_tag f_attrs f_done f_text]. rewrite (IHc I2 C2). cbn [map rev]. now rewrite <- app_assoc. }
    rewrite K, run_close by (exact Hn || reflexivity). unfold settle. cbn [f_tag f_attrs f_done f_text]. rewrite app_nil_r, rev_involutive. now destruct p.
Qed.

(** * The DOM's text *)

Inductive neat : dom -> Prop :=
| neat_none tag attrs : xmlName tag -> NoDup (map fst attrs) -> Forall attrOk attrs -> neat (DElem tag attrs [])
| neat_text tag attrs s : xmlName tag -> NoDup (map fst attrs) -> Forall attrOk attrs -> s <> "" -> Forall (fun a => goodText a = true) (chars s) ->
    neat (DElem tag attrs [DText s])
| neat_more tag attrs c ch : xmlName tag -> NoDup (map fst attrs) -> Forall attrOk attrs -> Forall neat (c :: ch) -> neat (DElem tag attrs (c :: ch)).

Fixpoint indentDom (k : nat) (d : dom) : dom :=
  match d with
  | DText s => d
  | DElem tag attrs ch =>
      DElem tag (normAttrs domNorm attrs)
        match ch with
        | [] => []
        | [DText s] => ch
        | _ => flat_map (fun c => [DText (lineFeed ++ tabs (S k))%string; indentDom (S k) c]) ch ++ [DText (lineFeed ++ tabs k)%string]
        end
  end.
Definition elementText (k : nat) (d : dom) : string :=
  match d with
  | DText s => ""
  | DElem tag attrs children =>
      ("<" ++ tag ++ attrsText domChar attrs ++
       match children with
       | [] => "/>"
       | [DText s] => ">" ++ escaping domChar s ++ "</" ++ tag ++ ">"
       | _ => ">" ++ lineFeed ++ String.concat "" (map (writexml (S k)) children) ++ tabs k ++ "</" ++ tag ++ ">"
       end)%string
  end.
Lemma append_assoc a b c : ((a ++ b) ++ c = a ++ b ++ c)%string.
Proof. rewrite <- (text_chars ((a ++ b) ++ c)), <- (text_chars (a ++ b ++ c)), !chars_app, app_assoc. reflexivity. Qed.
Lemma writexml_body k tag attrs ch : writexml k (DElem tag attrs ch) = (tabs k ++ elementText k (DElem tag attrs ch) ++ lineFeed)%string.
Proof.
  cbn [writexml elementText]. f_equal. rewrite !append_assoc. f_equal. rewrite ?append_assoc. f_equal. rewrite ?append_assoc. f_equal.
  destruct ch as [|[s|t a c] [|d ch]]; rewrite ?append_assoc; reflexivity.
Qed.
Lemma neat_elem d : neat d -> exists tag attrs ch, d = DElem tag attrs ch.
Proof. destruct d; [inversion 1|eauto]. Qed.

Lemma white_tabs k : Forall (fun a => isXmlSpace a = true /\ goodText a = true) (chars (tabs k)).
Proof. unfold tabs. rewrite chars_text. induction k; constructor; [split; reflexivity|exact IHk]. Qed.
Lemma white_lf : Forall (fun a => isXmlSpace a = true /\ goodText a = true) (chars lineFeed).
Proof. constructor; [split; reflexivity|constructor]. Qed.

Lemma dom_induction (P : dom -> Prop) : (forall s, P (DText s)) -> (forall tag attrs ch, Forall P ch -> P (DElem tag attrs ch)) -> forall d, P d.
Proof. intros H1 H2. fix IH 1. intros [s|tag attrs ch]; [apply H1|]. apply H2. induction ch; constructor; [apply IH|assumption]. Qed.

Lemma many_children {A} (f g : dom -> A) c ch : Forall neat (c :: ch) ->
  forall (X : A) (Y : string -> A), match c :: ch with [] => X | [DText s] => Y s | _ => g c end = g c.
Proof. intros H X Y. inversion_clear H as [|? ? H1 H2]. destruct (neat_elem c H1) as (t & a & l & ->). destruct ch; reflexivity. Qed.

Lemma run_body d : neat d -> forall k p rest,
  run Content p (chars (elementText k d) ++ rest) = match putElem (indentDom k d) p with Some p => run Content p rest | None => None end.
Proof.
  induction d as [s|tag attrs ch IH] using dom_induction; [inversion 1|]. intros H k p rest. inversion H as [? ? Hn Hd Ha E|? ? s Hn Hd Ha Hs Hb E|? ? c ch0 Hn Hd Ha Hc E]; subst.
  - cbn [elementText indentDom]. apply (run_empty _ _ _ _ _ _ false dom_value Hn Ha Hd).
  - cbn [elementText indentDom].
    replace (chars _) with (chars ("<" ++ tag ++ attrsText domChar attrs ++ ">")%string ++ chars (escaping domChar s) ++ chars ("</" ++ tag ++ ">")%string)
      by (rewrite !chars_app; cbn [chars list_ascii_of_string app]; rewrite <- ?app_assoc, ?app_nil_r; reflexivity).
    rewrite <- !app_assoc. rewrite (run_start _ _ _ _ _ _ dom_value Hn Ha Hd), (run_text _ dom_content) by exact Hb.
    rewrite run_close by (exact Hn || reflexivity). unfold settle, withText. cbn [f_tag f_attrs f_done f_text]. rewrite app_nil_r. destruct p as [fs root]. cbn [fst snd].
    replace (match rev (chars s) with [] => [] | t => [DText (text (rev t))] end) with [DText s]; [reflexivity|].
    destruct (rev (chars s)) as [|b l] eqn:E.
    + exfalso. apply Hs. destruct s; [reflexivity|]. cbn in E. destruct (rev (list_ascii_of_string s)); discriminate.
    + rewrite <- E, rev_involutive. now rewrite text_chars.
  - set (L := c :: ch0) in *.
    replace (elementText k (DElem tag attrs L)) with ("<" ++ tag ++ attrsText domChar attrs ++ ">" ++ lineFeed ++ String.concat "" (map (writexml (S k)) L) ++ tabs k ++ "</" ++ tag ++ ">")%string
      by (cbn [elementText]; inversion Hc as [|? ? C1 C2]; subst; destruct (neat_elem c C1) as (t & a & l & ->); destruct ch0; reflexivity).
    replace (indentDom k (DElem tag attrs L)) with (DElem tag (normAttrs domNorm attrs) (flat_map (fun c => [DText (lineFeed ++ tabs (S k))%string; indentDom (S k) c]) L ++ [DText (lineFeed ++ tabs k)%string]))
      by (cbn [indentDom]; inversion Hc as [|? ? C1 C2]; subst; destruct (neat_elem c C1) as (t & a & l & ->); destruct ch0; reflexivity).
    clearbody L.
    replace (chars _) with (chars ("<" ++ tag ++ attrsText domChar attrs ++ ">")%string ++ chars lineFeed ++ chars (String.concat "" (map (writexml (S k)) L)) ++ chars (tabs k) ++ chars ("</" ++ tag ++ ">")%string)
      by (rewrite !chars_app; cbn [chars list_ascii_of_string app]; rewrite <- ?app_assoc; reflexivity).
    rewrite <- !app_assoc. rewrite (run_start _ _ _ _ _ _ dom_value Hn Ha Hd), run_white by exact white_lf. unfold withText at 1. cbn [f_tag f_attrs f_done f_text chars lineFeed]. rewrite app_nil_r. change (rev (chars lineFeed)) with ["010"%char].
    assert (K : forall fs root rest done, run Content ({| f_tag := tag; f_attrs := normAttrs domNorm attrs; f_done := done; f_text := ["010"%char] |} :: fs, root) (chars (String.concat "" (map (writexml (S k)) L)) ++ rest) =
       run Content ({| f_tag := tag; f_attrs := normAttrs domNorm attrs; f_done := rev (flat_map (fun c => [DText (lineFeed ++ tabs (S k))%string; indentDom (S k) c]) L) ++ done; f_text := ["010"%char] |} :: fs, root) rest).
    { clear - IH Hc. induction L as [|d L IHL]; intros fs root rest done; [reflexivity|]. inversion_clear IH as [|? ? I1 I2]. inversion_clear Hc as [|? ? C1 C2].
      destruct (neat_elem d C1) as (t & a & l & E). cbn [map]. rewrite concat_cons'. rewrite E, writexml_body, <- E. rewrite !chars_app, <- !app_assoc.
      rewrite run_white by apply white_tabs. rewrite (I1 C1), put_push, run_white by exact white_lf.
      unfold push, withText, settle. cbn [f_tag f_attrs f_done f_text]. rewrite app_nil_r. change (rev (chars lineFeed)) with ["010"%char]. rewrite (IHL I2 C2).
      replace (match rev (chars (tabs (S k))) ++ ["010"%char] with [] => done | t => DText (text (rev t)) :: done end) with (DText (lineFeed ++ tabs (S k))%string :: done).
      - cbn [flat_map]. rewrite rev_app_distr. cbn [rev app]. now rewrite <- app_assoc.
      - destruct (rev (chars (tabs (S k))) ++ ["010"%char]) as [|b r] eqn:Er; [destruct (rev (chars (tabs (S k)))); discriminate|]. rewrite <- Er, rev_app_distr, rev_involutive.
        f_equal. f_equal. rewrite <- (text_chars (lineFeed ++ tabs (S k))), chars_app. reflexivity. }
    rewrite K, run_white by apply white_tabs. rewrite run_close by (exact Hn || reflexivity).
    unfold settle, withText. cbn [f_tag f_attrs f_done f_text]. rewrite app_nil_r.
    destruct (rev (chars (tabs k)) ++ ["010"%char]) as [|b r] eqn:Er; [destruct (rev (chars (tabs k))); discriminate|]. rewrite <- Er, rev_app_distr, rev_involutive.
    replace (text (rev ["010"%char] ++ chars (tabs k))) with (lineFeed ++ tabs k)%string by (rewrite <- (text_chars (lineFeed ++ tabs k)), chars_app; reflexivity).
    cbn [rev]. rewrite rev_involutive. now destruct p.
Qed.

(** * Both agree *)

Lemma neat_domOf e : plainDocument e -> neat (domOf e).
Proof.
  induction e as [tag attrs x ch IH] using xelem_induction. intro P. apply plain_eq in P as (Hn & Hd & Ha & Hx & Hc). apply attrs_ok in Ha. cbn [domOf].
  assert (Hd' : NoDup (map fst (normAttrs attribNorm attrs))) by (rewrite norm_keys; exact Hd).
  assert (Ha' : Forall attrOk (normAttrs attribNorm attrs)).
  { apply Forall_map. eapply Forall_impl; [|exact Ha]. intros [k v] [H1 H2]. split; [exact H1|]. cbn [fst snd] in *. unfold normText. rewrite chars_text. apply Forall_map. eapply Forall_impl; [|exact H2].
    intros a G. unfold attribNorm. destruct (Ascii.eqb a "009"); [reflexivity|exact G]. }
  destruct x as [s|]; [destruct Hx as (Hs & Hb & _); apply neat_text; auto using body_good|].
  destruct ch as [|c ch]; [now apply neat_none|]. apply neat_more; try assumption. apply Forall_map with (f := domOf) (l := c :: ch) (P := neat).
  rewrite Forall_forall in *. auto.
Qed.

Lemma split_none s : Forall (fun b => Ascii.eqb b ":" = false) (chars s) -> splitName s = (None, s).
Proof.
  intro H. unfold splitName, splitAt.
  assert (K : forall l cur, Forall (fun b => Ascii.eqb b ":" = false) l -> splitAtFrom ":" cur l = [text (rev cur ++ l)]).
  { induction l as [|a l IH]; intros cur Hl; [now rewrite app_nil_r|]. inversion_clear Hl as [|? ? Ha Ht]. cbn [splitAtFrom]. rewrite Ha, IH by exact Ht. cbn [rev]. now rewrite <- app_assoc. }
  rewrite K by exact H. reflexivity.
Qed.
Lemma name_split s : xmlName s -> splitName s = (None, s).
Proof. intro H. destruct (name_facts s H) as (_ & _ & _ & _ & _ & H' & _). now apply split_none. Qed.
Lemma declared_none k v : xmlName k -> declared [(k, v)] = [].
Proof.
  intro H. pose proof (name_split k H) as E. destruct H as [_ N]. cbn [declared flat_map]. rewrite E. destruct (String.eqb_spec k "xmlns"); [contradiction|reflexivity].
Qed.
Lemma declared_names attrs : Forall (fun kv => xmlName (fst kv)) attrs -> declared attrs = [].
Proof.
  induction 1 as [|[k v] l H _ IH]; [reflexivity|]. pose proof (declared_none k v H) as E. cbn [declared flat_map] in *. rewrite app_nil_r in E. rewrite E. exact IH.
Qed.
Lemma own_names attrs : Forall (fun kv : string * string => xmlName (fst kv)) attrs ->
  filter (fun '(k, _) => match declared [(k, "")] with [] => true | _ => false end) attrs = attrs.
Proof. induction 1 as [|[k v] l H _ IH]; [reflexivity|]. cbn [filter]. rewrite (declared_none k "" H), IH. reflexivity. Qed.
Lemma attr_names env attrs : Forall (fun kv : string * string => xmlName (fst kv)) attrs ->
  fold_right (fun '(k, v) r => match attrName env k, r with Some k, Some r => Some ((k, v) :: r) | _, _ => None end) (Some []) attrs = Some attrs.
Proof. induction 1 as [|[k v] l H _ IH]; [reflexivity|]. cbn [fold_right]. rewrite IH. unfold attrName. rewrite (name_split k H). reflexivity. Qed.
Lemma tag_name tag : xmlName tag -> elementName xmlPrefix tag = Some tag.
Proof. intro H. unfold elementName. rewrite (name_split tag H). reflexivity. Qed.
Definition childElems (env : list (string * string)) : list dom -> option (list xelem) :=
  fix go (ch : list dom) : option (list xelem) :=
    match ch with
    | [] => Some []
    | DText _ :: t => go t
    | c :: t => match elements env c, go t with Some e, Some es => Some (e :: es) | _, _ => None end
    end.
Lemma elements_eq tag attrs ch : xmlName tag -> Forall (fun kv => xmlName (fst kv)) attrs ->
  elements xmlPrefix (DElem tag attrs ch) =
  match childElems xmlPrefix ch with Some es => Some (XElem tag attrs (match ch with DText s :: _ => Some s | _ => None end) es) | None => None end.
Proof.
  intros Hn Ha. cbn [elements]. rewrite (declared_names attrs Ha). cbn [app]. rewrite own_names, attr_names, tag_name by assumption. reflexivity.
Qed.
Lemma neat_names attrs : Forall attrOk attrs -> Forall (fun kv => xmlName (fst kv)) attrs.
Proof. apply Forall_impl. intros kv H. apply H. Qed.
Lemma norm_names g attrs : Forall (fun kv => xmlName (fst kv)) attrs -> Forall (fun kv => xmlName (fst kv)) (normAttrs g attrs).
Proof. intro H. apply Forall_map. exact H. Qed.

Lemma elements_dom e : plainDocument e -> elements xmlPrefix (domOf e) <> None.
Proof.
  induction e as [tag attrs x ch IH] using xelem_induction. intro P. apply plain_eq in P as (Hn & Hd & Ha & Hx & Hc). apply attrs_ok, neat_names in Ha. cbn [domOf].
  rewrite elements_eq by auto using norm_names. destruct x as [s|]; [discriminate|].
  assert (K : childElems xmlPrefix (map domOf ch) <> None).
  { clear - IH Hc. induction ch as [|c ch IHc]; [discriminate|]. inversion_clear IH as [|? ? I1 I2]. inversion_clear Hc as [|? ? C1 C2]. specialize (I1 C1). specialize (IHc I2 C2).
    destruct c as [t a x l]. cbn [map childElems]. fold (childElems xmlPrefix). change (domOf (XElem t a x l)) with (DElem t (normAttrs attribNorm a) match x with Some s => [DText s] | None => map domOf l end) in *. cbn [childElems].
    destruct (elements _ _); [|contradiction]. destruct (childElems _ _); [discriminate|contradiction]. }
  destruct (childElems _ _); [discriminate|contradiction].
Qed.

Lemma blanks_norm s : normText domNorm (normText attribNorm s) = blanks s.
Proof.
  unfold normText, blanks. rewrite chars_text, map_map. f_equal. apply map_ext. intro a. unfold domNorm, attribNorm.
  destruct (Ascii.eqb a "009") eqn:E1; [reflexivity|]. now rewrite E1.
Qed.
Lemma blank_attrs attrs : normAttrs domNorm (normAttrs attribNorm attrs) = map (fun kv => (fst kv, blanks (snd kv))) attrs.
Proof. unfold normAttrs. rewrite map_map. apply map_ext. intros [k v]. cbn [fst snd]. now rewrite blanks_norm. Qed.

Lemma elements_indent e : plainDocument e -> forall k, exists e', elements xmlPrefix (indentDom k (domOf e)) = Some e' /\ sameTree (blankAttributes e) e'.
Proof.
  induction e as [tag attrs x ch IH] using xelem_induction. intros P k. apply plain_eq in P as (Hn & Hd & Ha & Hx & Hc). apply attrs_ok, neat_names in Ha. cbn [domOf blankAttributes].
  destruct x as [s|].
  - destruct Hx as (Hs & Hb & ->). cbn [indentDom]. rewrite elements_eq by auto using norm_names. rewrite blank_attrs. eexists. split; [reflexivity|]. apply sameTree_eq. repeat split. constructor.
  - destruct ch as [|c0 ch0].
    + cbn [map indentDom]. rewrite elements_eq by auto using norm_names. rewrite blank_attrs. eexists. split; [reflexivity|]. apply sameTree_eq. repeat split. constructor.
    + assert (E : indentDom k (DElem tag (normAttrs attribNorm attrs) (map domOf (c0 :: ch0))) =
                  DElem tag (normAttrs domNorm (normAttrs attribNorm attrs)) (flat_map (fun c => [DText (lineFeed ++ tabs (S k))%string; indentDom (S k) c]) (map domOf (c0 :: ch0)) ++ [DText (lineFeed ++ tabs k)%string])).
      { destruct c0 as [t a x l]. cbn [map domOf indentDom]. destruct (map domOf ch0); reflexivity. }
      rewrite E, elements_eq by auto using norm_names. rewrite blank_attrs.
      assert (K : exists es, childElems xmlPrefix (flat_map (fun c => [DText (lineFeed ++ tabs (S k))%string; indentDom (S k) c]) (map domOf (c0 :: ch0)) ++ [DText (lineFeed ++ tabs k)%string]) = Some es /\
                  Forall2 sameTree (map blankAttributes (c0 :: ch0)) es).
      { clear - IH Hc. set (L := c0 :: ch0) in *. clearbody L. induction L as [|c L IHL]; [exists []; split; [reflexivity|constructor]|]. inversion_clear IH as [|? ? I1 I2]. inversion_clear Hc as [|? ? C1 C2].
        destruct (I1 C1 (S k)) as (e & E1 & S1). destruct (IHL I2 C2) as (es & E2 & S2). exists (e :: es). split; [|cbn [map]; now constructor].
        cbn [map flat_map app]. destruct c as [t a x l]. cbn [domOf]. cbn [domOf] in E1. unfold childElems at 1. fold (childElems xmlPrefix).
        cbn [indentDom] in *. rewrite E1, E2. reflexivity. }
      destruct K as (es & -> & S). eexists. split; [reflexivity|]. apply sameTree_eq. repeat split; [discriminate|exact S].
Qed.

(** * Plain characters *)

Definition goodAll (s : string) : Prop := Forall (fun a => goodText a = true) (chars s).
Lemma goodAll_app s t : goodAll s -> goodAll t -> goodAll (s ++ t)%string.
Proof. unfold goodAll. rewrite chars_app. apply Forall_app_mk. Qed.
Lemma goodAll_name s : xmlName s -> goodAll s.
Proof. intro H. destruct (name_facts s H) as (_ & _ & _ & _ & _ & _ & H' & _). exact H'. Qed.
Lemma goodAll_concat l : Forall goodAll l -> goodAll (String.concat "" l).
Proof. induction 1 as [|s l H _ IH]; [constructor|]. rewrite concat_cons'. now apply goodAll_app. Qed.
Definition goodEscape (f : ascii -> list ascii) : Prop := forall a, goodText a = true -> Forall (fun a => goodText a = true) (f a).
Ltac goods := repeat (constructor; [reflexivity|]); try constructor.
Lemma good_cdata : goodEscape cdataChar.
Proof. intros a H. unfold cdataChar. repeat (destruct (Ascii.eqb a _); [goods|]). constructor; [exact H|constructor]. Qed.
Lemma good_dom : goodEscape domChar.
Proof. intros a H. unfold domChar. destruct (Ascii.eqb a _); [goods|]. now apply good_cdata. Qed.
Lemma good_attrib : goodEscape attribChar.
Proof. intros a H. unfold attribChar. repeat (destruct (Ascii.eqb a _); [goods|]). now apply good_cdata. Qed.
Lemma goodAll_escaping f s : goodEscape f -> goodAll s -> goodAll (escaping f s).
Proof. intros F H. unfold goodAll, escaping in *. rewrite chars_text. apply Forall_flat_map. eapply Forall_impl; [|exact H]. exact F. Qed.
Lemma goodAll_attrs f attrs : goodEscape f -> Forall attrOk attrs -> goodAll (attrsText f attrs).
Proof.
  intros F H. apply goodAll_concat, Forall_map. eapply Forall_impl; [|exact H]. intros [k v] [H1 H2]. cbn [fst snd] in *.
  repeat apply goodAll_app; try solve [goods]; [now apply goodAll_name|now apply goodAll_escaping].
Qed.
Lemma goodAll_serialize e : plainDocument e -> goodAll (serialize e).
Proof.
  induction e as [tag attrs x ch IH] using xelem_induction. intro P. apply plain_eq in P as (Hn & Hd & Ha & Hx & Hc). apply attrs_ok in Ha. cbn [serialize].
  apply goodAll_app; [goods|]. apply goodAll_app; [now apply goodAll_name|]. apply goodAll_app; [apply goodAll_attrs; [exact good_attrib|exact Ha]|].
  destruct (match x with Some _ => _ | None => _ end); [goods|]. apply goodAll_app; [goods|]. apply goodAll_app; [|repeat apply goodAll_app; [goods|now apply goodAll_name|goods]].
  apply goodAll_app; [destruct x as [s|]; [apply goodAll_escaping; [exact good_cdata|apply body_good; apply Hx]|constructor]|].
  apply goodAll_concat, Forall_map. rewrite Forall_forall in *. auto.
Qed.
Lemma goodAll_white s : Forall (fun a => isXmlSpace a = true /\ goodText a = true) (chars s) -> goodAll s.
Proof. apply Forall_impl. tauto. Qed.
Lemma goodAll_writexml d : neat d -> forall k, goodAll (writexml k d).
Proof.
  induction d as [s|tag attrs ch IH] using dom_induction; [inversion 1|]. intros H k. rewrite writexml_body.
  apply goodAll_app; [apply goodAll_white, white_tabs|]. apply goodAll_app; [|apply goodAll_white, white_lf]. cbn [elementText].
  assert (Hh : xmlName tag /\ Forall attrOk attrs) by (inversion H; auto). destruct Hh as [Hn Ha].
  apply goodAll_app; [goods|]. apply goodAll_app; [now apply goodAll_name|]. apply goodAll_app; [apply goodAll_attrs; [exact good_dom|exact Ha]|].
  assert (C : goodAll ("</" ++ tag ++ ">")) by (repeat apply goodAll_app; [goods|now apply goodAll_name|goods]).
  inversion H as [? ? _ _ _ E|? ? s _ _ _ Hs Hb E|? ? c ch0 _ _ _ Hc E]; subst; [goods| |].
  - repeat apply goodAll_app; try solve [goods]; [now apply goodAll_escaping; [exact good_dom|]|now apply goodAll_name].
  - assert (M : goodAll (">" ++ lineFeed ++ String.concat "" (map (writexml (S k)) (c :: ch0)) ++ tabs k ++ "</" ++ tag ++ ">")%string).
    { apply goodAll_app; [goods|]. apply goodAll_app; [apply goodAll_white, white_lf|]. apply goodAll_app; [|apply goodAll_app; [apply goodAll_white, white_tabs|exact C]].
      apply goodAll_concat, Forall_map. rewrite Forall_forall in *. auto. }
    inversion Hc as [|? ? C1 C2]; subst. destruct (neat_elem c C1) as (t & a & l & ->). destruct ch0; exact M.
Qed.
Lemma goodAll_ascii s : goodAll s -> isAscii s = true.
Proof. intro H. unfold isAscii. apply forallb_forall. intros a Ha. apply good_ascii. unfold goodAll in H; rewrite Forall_forall in H. now apply H. Qed.
Lemma lineEnds_same l : Forall (fun a => goodText a = true) l -> lineEnds l = l.
Proof. induction 1 as [|a l H _ IH]; [reflexivity|]. cbn [lineEnds]. now rewrite (good_cr a H), IH. Qed.

(** * The round trip *)

Definition header1 : string := ("<?xml version='1.0' encoding='UTF-8'?>" ++ lineFeed)%string.
Definition header2 : string := ("<?xml version=""1.0"" ?>" ++ lineFeed)%string.
Lemma run_header1 rest : run Content ([], None) (chars header1 ++ rest) = run Content ([], None) rest.
Proof. rewrite run_app. reflexivity. Qed.
Lemma run_header2 rest : run Content ([], None) (chars header2 ++ rest) = run Content ([], None) rest.
Proof. rewrite run_app. reflexivity. Qed.
Lemma goodAll_header1 : goodAll header1.
Proof. apply Forall_forall. now apply forallb_forall. Qed.
Lemma goodAll_header2 : goodAll header2.
Proof. apply Forall_forall. now apply forallb_forall. Qed.
Lemma tostring_eq e : tostring e = (header1 ++ serialize e)%string.
Proof. unfold tostring, header1. now rewrite append_assoc. Qed.
Lemma pretty_eq d : toprettyxml d = (header2 ++ writexml 0 d)%string.
Proof. unfold toprettyxml, header2. now rewrite append_assoc. Qed.

Lemma parse_tostring e : plainDocument e -> parseDom (tostring e) = Some (domOf e).
Proof.
  intro P. unfold parseDom. rewrite tostring_eq. rewrite lineEnds_same by (apply goodAll_app; [exact goodAll_header1|now apply goodAll_serialize]).
  rewrite chars_app, run_header1. rewrite <- (app_nil_r (chars (serialize e))), run_serialize by exact P. reflexivity.
Qed.
Lemma parse_pretty d : neat d -> parseDom (toprettyxml d) = Some (indentDom 0 d).
Proof.
  intro P. unfold parseDom. rewrite pretty_eq. rewrite lineEnds_same by (apply goodAll_app; [exact goodAll_header2|now apply goodAll_writexml]).
  rewrite chars_app, run_header2. destruct (neat_elem d P) as (t & a & c & E). rewrite E, writexml_body, <- E. rewrite !chars_app. cbn [tabs repeat text string_of_list_ascii chars list_ascii_of_string app].
  fold (chars (elementText 0 d)). rewrite run_body by exact P. cbn [putElem]. fold (chars lineFeed). rewrite <- (app_nil_r (chars lineFeed)), run_white_top by exact white_lf. reflexivity.
Qed.

Lemma text_back root : plainDocument root ->
  exists t root', xmlPrettify root = Ok t /\ isAscii t = true /\ etreeParse t = Some root' /\ sameTree (blankAttributes root) root'.
Proof.
  intro P. pose proof (neat_domOf root P) as N. destruct (elements_indent root P 0) as (root' & E & S). exists (toprettyxml (domOf root)), root'.
  assert (G1 : goodAll (tostring root)) by (rewrite tostring_eq; apply goodAll_app; [exact goodAll_header1|now apply goodAll_serialize]).
  assert (G2 : goodAll (toprettyxml (domOf root))) by (rewrite pretty_eq; apply goodAll_app; [exact goodAll_header2|now apply goodAll_writexml]).
  split; [|split; [|split]].
  - unfold xmlPrettify. cbv zeta. rewrite goodAll_ascii, parse_tostring by assumption. pose proof (elements_dom root P) as D. destruct (elements xmlPrefix (domOf root)); [reflexivity|contradiction].
  - now apply goodAll_ascii.
  - unfold etreeParse. rewrite parse_pretty by exact N. exact E.
  - exact S.
Qed.

Lemma line_eq tag attrs x ch : lineAttributes (XElem tag attrs x ch) <-> Forall (fun kv => lineText (snd kv)) attrs /\ Forall lineAttributes ch.
Proof.
  cbn [lineAttributes].
  assert (E : (fix all (ch : list xelem) : Prop := match ch with [] => True | c :: t => lineAttributes c /\ all t end) ch <-> Forall lineAttributes ch).
  { induction ch as [|c ch IH]; [split; [constructor|exact (fun _ => I)]|]. rewrite Forall_cons_iff, IH. reflexivity. }
  rewrite E. reflexivity.
Qed.
Lemma blanks_line s : lineText s -> blanks s = s.
Proof.
  intro H. unfold blanks. rewrite <- (text_chars s) at 2. f_equal. rewrite <- (map_id (chars s)) at 2. apply map_ext_in. intros a Ha.
  unfold lineText in H. rewrite Forall_forall in H. specialize (H a Ha). unfold printable in H.
  destruct (Ascii.eqb_spec a "009") as [->|_]; [exfalso; cbn in H; lia|]. destruct (Ascii.eqb_spec a "010") as [->|_]; [exfalso; cbn in H; lia|reflexivity].
Qed.
Lemma blank_line e : lineAttributes e -> blankAttributes e = e.
Proof.
  induction e as [tag attrs x ch IH] using xelem_induction. intro H. apply line_eq in H as [Ha Hc]. cbn [blankAttributes]. f_equal.
  - rewrite <- (map_id attrs) at 2. apply map_ext_in. intros [k v] Hi. rewrite Forall_forall in Ha. cbn [fst snd]. now rewrite (blanks_line v (Ha _ Hi)).
  - rewrite <- (map_id ch) at 2. apply map_ext_in. intros c Hi. rewrite Forall_forall in *. auto.
Qed.
Lemma text_keeps zip unzip root : plainDocument root -> lineAttributes root ->
  (forall t, xmlPrettify root = Ok t -> unzip t = None /\ unzip (zip t) = Some t) -> keepsDocument (textFiles zip unzip) root.
Proof.
  intros P L Z. destruct (text_back root P) as (t & root' & H1 & H2 & H3 & H4). rewrite (blank_line root L) in H4. destruct (Z t H1) as [Z1 Z2].
  exists t, root'. repeat split; assumption.
Qed.
