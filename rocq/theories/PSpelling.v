(** Every way of writing a document is read as that document. *)
From Coq Require Import List String Ascii Lia NArith Bool.
From Verif Require Import SpecSpelling PNumText PXmlText PXmlTree.
Import ListNotations.
Local Open Scope string_scope.
Local Open Scope list_scope.

Notation good l := (Forall (fun a => goodText a = true) l).
Notation spaces l := (Forall (fun a => isXmlSpace a = true /\ goodText a = true) l).

Lemma plain_good a : plain a -> goodText a = true.
Proof. apply good_text. Qed.
Lemma plain_all l : Forall plain l -> good l.
Proof. apply Forall_impl. exact plain_good. Qed.
Lemma white_spaces l : white l -> spaces l.
Proof. apply Forall_impl. intros a [->|[->| ->]]; now split. Qed.
Lemma white_good l : white l -> good l.
Proof. intro H. eapply Forall_impl; [|exact (white_spaces l H)]. now intros a [_ G]. Qed.

(** * References *)

Lemma dec_digit d n : digitOf 10 d n -> isDigit d = true /\ digitVal d = n.
Proof.
  intros [Hn H]. destruct n as [|p]; [destruct H as [H|H]; injection H as <-; now split|].
  do 4 (try (destruct p as [p|p|]; try lia)); destruct H as [H|H]; injection H as <-; now split.
Qed.
Lemma hex_digit d n : digitOf 16 d n -> hexVal d = Some n /\ goodText d = true /\ Ascii.eqb d ";" = false.
Proof.
  intros [Hn H]. destruct n as [|p]; [destruct H as [H|H]; injection H as <-; now repeat split|].
  do 5 (try (destruct p as [p|p|]; try lia)); destruct H as [H|H]; injection H as <-; now repeat split.
Qed.
Lemma digit_wider d n : digitOf 10 d n -> digitOf 16 d n.
Proof. intros [H1 H2]. split; [lia|exact H2]. Qed.
Lemma dec_numeral ds n : digitsOf 10 ds n -> forallb isDigit ds = true /\ readDigits ds = n /\ ds <> [].
Proof.
  induction 1 as [d n H|ds m d n _ (I1 & I2 & I3) H].
  - destruct (dec_digit d n H) as [H1 H2]. cbn. rewrite H1, H2. now repeat split.
  - destruct (dec_digit d n H) as [H1 H2]. rewrite forallb_app, I1. unfold readDigits in *. rewrite fold_left_app, I2. cbn. rewrite H1, H2. repeat split. destruct ds; discriminate.
Qed.
Lemma hex_numeral ds n : digitsOf 16 ds n -> readHexDigits ds = Some n /\ ds <> [].
Proof.
  induction 1 as [d n H|ds m d n _ (I1 & I2) H].
  - destruct (hex_digit d n H) as [H1 _]. unfold readHexDigits. cbn [fold_left]. rewrite H1. split; [f_equal; lia|discriminate].
  - destruct (hex_digit d n H) as [H1 _]. unfold readHexDigits in *. rewrite fold_left_app, I1. cbn [fold_left]. rewrite H1. split; [reflexivity|]. destruct ds; discriminate.
Qed.
Lemma numeral_chars base ds n : (base <= 16)%N -> digitsOf base ds n -> Forall (fun a => goodText a = true /\ Ascii.eqb a ";" = false) ds.
Proof.
  intros B H. assert (W : forall d n, digitOf base d n -> goodText d = true /\ Ascii.eqb d ";" = false).
  { intros d k [H1 H2]. apply (hex_digit d k). split; [lia|exact H2]. }
  induction H as [d n H|ds m d n _ IH H]; [constructor; [now apply (W d n)|constructor]|].
  apply Forall_app. split; [exact IH|]. constructor; [now apply (W d n)|constructor].
Qed.
Lemma char_of a : plain a \/ a = "013"%char -> charOf (N_of_ascii a) = Some a.
Proof.
  intro H. unfold charOf. replace (N_of_ascii a <? 256)%N with true.
  2:{ symmetry. apply N.ltb_lt. destruct H as [H| ->]; [|reflexivity]. apply plain_good, good_ascii, N.ltb_lt in H. lia. }
  cbv zeta. rewrite ascii_N_embedding. replace (isXmlChar a) with true; [reflexivity|]. symmetry. destruct H as [H| ->]; [|reflexivity]. now apply good_xml, plain_good.
Qed.
Lemma digit_not_x a : isDigit a = true -> Ascii.eqb a "x" = false.
Proof. intro H. destruct (Ascii.eqb_spec a "x"); [subst; discriminate|reflexivity]. Qed.
(** A reference is "&", a name and ";". *)
Lemma reference_parts a l : referenceTo a l -> exists r, l = ["&"%char] ++ r ++ [";"%char] /\
  Forall (fun b => goodText b = true /\ Ascii.eqb b ";" = false) r /\ reference (text r) = Some a.
Proof.
  destruct 1 as [nm H|ds P H|ds P H].
  - exists (chars nm). rewrite !chars_app. split; [reflexivity|]. rewrite text_chars.
    cbn in H. destruct H as [H|[H|[H|[H|[H|[]]]]]]; injection H as <- <-; (split; [repeat constructor|reflexivity]).
  - exists ("#"%char :: ds). split; [reflexivity|]. split; [constructor; [now split|]; eapply numeral_chars; [|exact H]; lia|].
    destruct (dec_numeral ds _ H) as (D & V & E). destruct ds as [|d ds]; [contradiction|]. unfold reference.
    replace (text ("#"%char :: d :: ds)) with (String "#" (String d (text ds))) by reflexivity.
    cbn [String.eqb Ascii.eqb Bool.eqb]. change (chars (String "#" (String d (text ds)))) with ("#"%char :: d :: chars (text ds)). rewrite chars_text.
    change (Ascii.eqb "#" "#") with true. cbv iota. cbn [forallb] in D. assert (D' := D). apply andb_prop in D' as [D' _]. rewrite (digit_not_x d D').
    cbn [forallb]. rewrite D, V. now apply char_of.
  - exists ("#"%char :: "x"%char :: ds). split; [reflexivity|]. split; [constructor; [now split|]; constructor; [now split|]; eapply numeral_chars; [|exact H]; lia|].
    destruct (hex_numeral ds _ H) as (V & E). destruct ds as [|d ds]; [contradiction|]. unfold reference.
    change (chars (text ("#"%char :: "x"%char :: d :: ds))) with ("#"%char :: "x"%char :: chars (text (d :: ds))). rewrite chars_text.
    change (Ascii.eqb "#" "#") with true. change (Ascii.eqb "x" "x") with true. cbv iota. rewrite V.
    cbn [text string_of_list_ascii String.eqb]. change (Ascii.eqb "#" "a") with false. change (Ascii.eqb "#" "l") with false. change (Ascii.eqb "#" "g") with false. change (Ascii.eqb "#" "q") with false. cbv iota. now apply char_of.
Qed.
Lemma reference_good a l : referenceTo a l -> good l.
Proof.
  intro H. destruct (reference_parts a l H) as (r & -> & G & _). apply Forall_app. split; [repeat constructor|]. apply Forall_app. split; [|repeat constructor].
  eapply Forall_impl; [|exact G]. now intros b [Hb _].
Qed.
Lemma run_ref r rest p : forall n, Forall (fun b => goodText b = true /\ Ascii.eqb b ";" = false) r -> run (Ref n) p (r ++ rest) = run (Ref (rev r ++ n)) p rest.
Proof.
  induction r as [|a r IH]; intros n H; [reflexivity|]. inversion_clear H as [|? ? [Hg Ha] Hr]. cbn [app run]. unfold step. rewrite (good_xml a Hg), Ha. unfold still.
  rewrite IH by exact Hr. cbn [rev]. now rewrite <- app_assoc.
Qed.
Lemma run_value_ref tag as_ k q v r rest p : forall n, Forall (fun b => goodText b = true /\ Ascii.eqb b ";" = false) r ->
  run (ValueRef tag as_ k q v n) p (r ++ rest) = run (ValueRef tag as_ k q v (rev r ++ n)) p rest.
Proof.
  induction r as [|a r IH]; intros n H; [reflexivity|]. inversion_clear H as [|? ? [Hg Ha] Hr]. cbn [app run]. unfold step. rewrite (good_xml a Hg), Ha. unfold still.
  rewrite IH by exact Hr. cbn [rev]. now rewrite <- app_assoc.
Qed.
Lemma content_reference a l f fs root rest : referenceTo a l -> run Content (f :: fs, root) (l ++ rest) = run Content (withText f [a] :: fs, root) rest.
Proof.
  intro H. destruct (reference_parts a l H) as (r & -> & G & E). rewrite <- !app_assoc. cbn [app run]. unfold step at 1. change (isXmlChar "&") with true. change (Ascii.eqb "&" "<") with false. change (Ascii.eqb "&" "&") with true.
  cbn [fst]. unfold still. rewrite run_ref by exact G. cbn [run]. unfold step. change (isXmlChar ";") with true. change (Ascii.eqb ";" ";") with true. cbv iota.
  unfold name. rewrite app_nil_r, rev_involutive, E. reflexivity.
Qed.
Lemma value_reference_run a l tag as_ k q v p rest : q = """"%char \/ q = "'"%char -> referenceTo a l ->
  run (Value tag as_ k q v) p (l ++ rest) = run (Value tag as_ k q (a :: v)) p rest.
Proof.
  intros Q H. destruct (reference_parts a l H) as (r & -> & G & E). rewrite <- !app_assoc. cbn [app run]. unfold step at 1. change (isXmlChar "&") with true.
  replace (Ascii.eqb "&" q) with false by (destruct Q as [->| ->]; reflexivity). change (Ascii.eqb "&" "<") with false. change (Ascii.eqb "&" "&") with true.
  cbv iota. unfold still. rewrite run_value_ref by exact G. cbn [run]. unfold step. change (isXmlChar ";") with true. change (Ascii.eqb ";" ";") with true. cbv iota.
  unfold name. rewrite app_nil_r, rev_involutive, E. reflexivity.
Qed.

(** * Attributes *)

Lemma run_value_char tag as_ k q v a l p rest : q = """"%char \/ q = "'"%char -> valueChar q a l ->
  run (Value tag as_ k q v) p (l ++ rest) = run (Value tag as_ k q (a :: v)) p rest.
Proof.
  intros Q [P N1 N2 N3|b -> B|l' R].
  - assert (G : goodText a = true) by (apply good_text; now left). cbn [app run]. unfold step. rewrite (good_xml a G).
    rewrite (proj2 (Ascii.eqb_neq a q) N1), (proj2 (Ascii.eqb_neq a "<") N2), (proj2 (Ascii.eqb_neq a "&") N3). unfold still.
    rewrite (space_good a G). unfold printable in P. replace (Ascii.eqb a "009") with false by (symmetry; apply Ascii.eqb_neq; intros ->; cbn in P; lia).
    replace (Ascii.eqb a "010") with false by (symmetry; apply Ascii.eqb_neq; intros ->; cbn in P; lia). cbn [orb].
    destruct (Ascii.eqb_spec a " ") as [->|]; reflexivity.
  - destruct Q as [->| ->]; destruct B as [->| ->]; reflexivity.
  - now apply value_reference_run.
Qed.
Lemma run_value_chars tag as_ k q p rest v cs : q = """"%char \/ q = "'"%char -> Forall2 (valueChar q) v cs -> forall n,
  run (Value tag as_ k q n) p (List.concat cs ++ rest) = run (Value tag as_ k q (rev v ++ n)) p rest.
Proof.
  intro Q. induction 1 as [|a l v cs H _ IH]; intro n; [reflexivity|]. cbn [List.concat rev]. rewrite <- app_assoc, (run_value_char _ _ _ _ _ a) by assumption. rewrite IH, <- app_assoc. reflexivity.
Qed.
Lemma value_char_good q a l : valueChar q a l -> good l.
Proof.
  intros [P _ _ _|b _ B|l' R]; [constructor; [apply good_text; now left|constructor]|constructor; [apply good_text; now right|constructor]|exact (reference_good a l' R)].
Qed.

Lemma key_chars k : xmlName k \/ k = "xmlns" -> exists a t, chars k = a :: t /\ nameStart a = true /\ goodText a = true /\
  Forall (fun b => nameChar b = true /\ goodText b = true) t.
Proof. intros [H| ->]; [exact (name_chars k H)|]. exists "x"%char, (chars "mlns"). repeat split; repeat constructor. Qed.
Lemma key_good k : xmlName k \/ k = "xmlns" -> good (chars k).
Proof. intro H. destruct (key_chars k H) as (a & t & -> & _ & G & F). constructor; [exact G|]. eapply Forall_impl; [|exact F]. now intros b [_ Hb]. Qed.
Lemma attr_good kv l : attrSpelled kv l -> good l.
Proof.
  intros [k v w1 w2 w3 q cs K W1 _ W2 W3 Q V]. repeat (apply Forall_app; split); try (now apply white_good).
  - now apply key_good.
  - repeat constructor.
  - destruct Q as [->| ->]; repeat constructor.
  - induction V; [constructor|]. cbn [List.concat]. apply Forall_app. split; [eapply value_char_good; eassumption|assumption].
  - destruct Q as [->| ->]; repeat constructor.
Qed.

(** Blanks in a tag. *)
Lemma run_in_space tag as_ w p rest : spaces w -> forall sp, run (InTag tag as_ sp) p (w ++ rest) = run (InTag tag as_ (match w with [] => sp | _ => true end)) p rest.
Proof.
  induction 1 as [|a w [Ha Hg] _ IH]; intro sp; [reflexivity|]. cbn [app run]. unfold step, inTag. rewrite (good_xml a Hg), Ha. unfold still. rewrite IH. now destruct w.
Qed.
Lemma space_not_name a : isXmlSpace a = true -> nameChar a = false.
Proof.
  intro E. unfold isXmlSpace in E. cbv zeta in E. rewrite !orb_true_iff, !N.eqb_eq in E.
  rewrite <- (ascii_N_embedding a). destruct E as [[[E|E]|E]|E]; rewrite E; reflexivity.
Qed.
Lemma run_state_space tag as_ m w p rest : tagState tag as_ m -> spaces w -> w <> [] -> run m p (w ++ rest) = run (InTag tag as_ true) p rest.
Proof.
  intros S H N. destruct H as [|a w [Ha Hg] Hw]; [contradiction|]. cbn [app run]. rewrite (S p a (space_not_name a Ha) Hg). unfold inTag. rewrite Ha. unfold still.
  rewrite run_in_space by exact Hw. now destruct w.
Qed.
Lemma run_after_name tag as_ k w p rest : spaces w -> run (AfterName tag as_ k) p (w ++ rest) = run (AfterName tag as_ k) p rest.
Proof. induction 1 as [|a w [Ha Hg] _ IH]; [reflexivity|]. cbn [app run]. unfold step. rewrite (good_xml a Hg), Ha. unfold still. exact IH. Qed.
Lemma run_before_value tag as_ k w p rest : spaces w -> run (BeforeValue tag as_ k) p (w ++ rest) = run (BeforeValue tag as_ k) p rest.
Proof. induction 1 as [|a w [Ha Hg] _ IH]; [reflexivity|]. cbn [app run]. unfold step. rewrite (good_xml a Hg), Ha. unfold still. exact IH. Qed.
Lemma run_equals tag as_ n w p rest : spaces w -> run (AttrName tag as_ n) p (w ++ "="%char :: rest) = run (BeforeValue tag as_ (name n)) p rest.
Proof.
  intro H. destruct H as [|a w [Ha Hg] Hw]; [reflexivity|]. cbn [app run]. unfold step at 1. rewrite (good_xml a Hg), (space_not_name a Ha).
  replace (Ascii.eqb a "=") with false by (symmetry; apply Ascii.eqb_neq; intros ->; discriminate). rewrite Ha. unfold still. rewrite run_after_name by exact Hw. reflexivity.
Qed.
Lemma run_attr tag as_ m kv l : tagState tag as_ m -> attrSpelled kv l -> forall p rest, run m p (l ++ rest) = run (InTag tag (kv :: as_) false) p rest.
Proof.
  intros S [k v w1 w2 w3 q cs K W1 N1 W2 W3 Q V] p rest. rewrite <- !app_assoc.
  rewrite (run_state_space tag as_) by (try assumption; now apply white_spaces).
  destruct (key_chars k K) as (a & t & E & Ha & Hg & Ht). rewrite E. cbn [app run]. destruct (nameStart_not a Ha) as (M1 & _ & _ & M4 & M5 & _).
  unfold step at 1. rewrite (good_xml a Hg). unfold inTag. rewrite M4, M5, M1, Ha. cbn [andb]. unfold still. rewrite run_attr_name by exact Ht.
  rewrite run_equals by now apply white_spaces. rewrite run_before_value by now apply white_spaces.
  cbn [run]. unfold step at 1.
  assert (X : isXmlChar q = true /\ isXmlSpace q = false /\ Ascii.eqb q """" || Ascii.eqb q "'" = true) by (destruct Q as [->| ->]; now repeat split).
  destruct X as (-> & -> & ->). unfold still. rewrite (run_value_chars _ _ _ _ _ _ (chars v)) by assumption. cbn [app run]. unfold step at 1.
  replace (isXmlChar q) with true by (destruct Q as [->| ->]; reflexivity). rewrite Ascii.eqb_refl. unfold still, name.
  rewrite app_nil_r, rev_involutive, text_chars, rev_app_distr, rev_involutive. cbn [rev app]. rewrite <- E, text_chars. reflexivity.
Qed.
Lemma run_attrs_spelled tag attrs ls : Forall2 attrSpelled attrs ls -> forall as_ m, tagState tag as_ m ->
  exists m', tagState tag (rev attrs ++ as_) m' /\ forall p rest, run m p (List.concat ls ++ rest) = run m' p rest.
Proof.
  induction 1 as [|kv l attrs ls H _ IH]; intros as_ m S; [exists m; split; [exact S|reflexivity]|].
  destruct (IH (kv :: as_) (InTag tag (kv :: as_) false) (in_state _ _)) as (m' & S' & R). exists m'. split; [cbn [rev]; now rewrite <- app_assoc|].
  intros p rest. cbn [List.concat]. rewrite <- app_assoc, (run_attr tag as_ m kv l S H). apply R.
Qed.
Lemma run_state_white tag as_ m w : tagState tag as_ m -> white w -> exists m', tagState tag as_ m' /\ forall p rest, run m p (w ++ rest) = run m' p rest.
Proof.
  intros S W. destruct w as [|a w]; [exists m; split; [exact S|reflexivity]|]. exists (InTag tag as_ true). split.
  - intros p b Hb Hg. unfold step. rewrite (good_xml b Hg). unfold inTag. destruct (isXmlSpace b); [reflexivity|]. destruct (Ascii.eqb b ">"); [reflexivity|]. destruct (Ascii.eqb b "/"); [reflexivity|].
    replace (nameStart b) with false; [reflexivity|]. unfold nameChar in Hb. rewrite !orb_false_iff in Hb. symmetry. apply Hb.
  - intros p rest. apply run_state_space; [exact S|now apply white_spaces|discriminate].
Qed.
Lemma run_start_spelled tag attrs l : startSpelled tag attrs l ->
  distinct (map fst attrs) = true /\ exists m, tagState tag (rev attrs) m /\ forall p rest, run Content p ("<"%char :: l ++ rest) = run m p rest.
Proof.
  intros (ls & w & T & D & A & W & ->). split; [now apply distinct_nodup|].
  destruct (run_attrs_spelled tag attrs ls A [] (OpenName (rev (chars tag))) (open_state tag)) as (m1 & S1 & R1). rewrite app_nil_r in S1.
  destruct (run_state_white tag _ m1 w S1 W) as (m2 & S2 & R2). exists m2. split; [exact S2|]. intros p rest.
  rewrite <- !app_assoc. replace ("<"%char :: chars tag ++ List.concat ls ++ w ++ rest) with (chars ("<" ++ tag)%string ++ List.concat ls ++ w ++ rest) by (rewrite chars_app; reflexivity).
  rewrite run_tag by exact T. rewrite R1. apply R2.
Qed.

(** * Comments, instructions and CDATA sections *)

Lemma without_tail s a l : without s (a :: l) -> without s l.
Proof. intros H (x & y & E). apply H. exists (a :: x), y. now rewrite E. Qed.
Lemma without_app s a l : without s (a ++ l) -> without s l.
Proof. induction a; intro H; [exact H|]. apply IHa. now apply without_tail in H. Qed.
Lemma run_comment_from c : good c -> forall d p rest, d <= 1 -> without "--" (repeat "-"%char d ++ c ++ ["-"%char]) ->
  run (CommentText d) p (c ++ chars "-->" ++ rest) = run Content p rest.
Proof.
  induction 1 as [|a c Ha Hc IH]; intros d p rest D W.
  - destruct d as [|[|d]]; [reflexivity| |lia]. exfalso. apply W. exists [], []. reflexivity.
  - cbn [app run]. unfold step at 1. rewrite (good_xml a Ha). destruct (Ascii.eqb a "-") eqn:E.
    + apply Ascii.eqb_eq in E. subst a. destruct d as [|[|d]]; [| |lia].
      * unfold still. apply IH; [lia|exact W].
      * exfalso. apply W. exists [], (c ++ ["-"%char]). reflexivity.
    + destruct d as [|[|d]]; [| |lia]; unfold still; (apply IH; [lia|]).
      * exact (without_tail _ _ _ W).
      * exact (without_tail _ _ _ (without_tail _ _ _ W)).
Qed.
Lemma run_comment l p rest : comment l -> run Content p (l ++ rest) = run Content p rest.
Proof.
  intros (c & P & W & ->). rewrite <- !app_assoc. transitivity (run (CommentText 0) p (c ++ chars "-->" ++ rest)); [reflexivity|].
  apply run_comment_from; [now apply plain_all|lia|exact W].
Qed.
Lemma comment_good l : comment l -> good l.
Proof. intros (c & P & _ & ->). apply Forall_app. split; [repeat constructor|]. apply Forall_app. split; [now apply plain_all|repeat constructor]. Qed.

Lemma run_pi_from c : good c -> forall (q : bool) p rest, without "?>" ((if q then ["?"%char] else []) ++ c) ->
  run (Pi q) p (c ++ chars "?>" ++ rest) = run Content p rest.
Proof.
  induction 1 as [|a c Ha Hc IH]; intros q p rest W; [now destruct q|].
  cbn [app run]. unfold step at 1. rewrite (good_xml a Ha). destruct (q && Ascii.eqb a ">") eqn:E.
  - apply andb_prop in E as [-> E]. apply Ascii.eqb_eq in E. subst a. exfalso. apply W. exists [], c. reflexivity.
  - unfold still. apply IH. destruct (Ascii.eqb a "?") eqn:F; [apply Ascii.eqb_eq in F; subst a; apply without_app in W; exact W|].
    apply without_app in W. exact (without_tail _ _ _ W).
Qed.
Lemma run_instruction l p rest : instruction l -> run Content p (l ++ rest) = run Content p rest.
Proof.
  intros (a & c & F & P & W & _ & ->). rewrite <- !app_assoc. transitivity (run (Pi false) p ((a :: c) ++ chars "?>" ++ rest)); [reflexivity|].
  apply run_pi_from; [|exact W]. constructor; [apply (first_start a F)|now apply plain_all].
Qed.
Lemma instruction_good l : instruction l -> good l.
Proof.
  intros (a & c & F & P & _ & _ & ->). apply Forall_app. split; [repeat constructor|]. apply Forall_app. split; [|repeat constructor].
  constructor; [apply (first_start a F)|now apply plain_all].
Qed.
Lemma run_declaration l p rest : declaration l -> run Content p (l ++ rest) = run Content p rest.
Proof.
  intros (v & e & w & V & W & E & N & ->). rewrite <- !app_assoc. transitivity (run (Pi false) p ((v ++ e ++ w) ++ chars "?>" ++ rest)); [now rewrite <- !app_assoc|].
  apply run_pi_from; [|exact N]. apply Forall_app. split; [exact (attr_good _ _ V)|]. apply Forall_app. split; [|now apply white_good].
  destruct E as [->|(x & _ & E)]; [constructor|exact (attr_good _ _ E)].
Qed.
Lemma declaration_good l : declaration l -> good l.
Proof.
  intros (v & e & w & V & W & E & N & ->). repeat (apply Forall_app; split); try (now repeat constructor).
  - exact (attr_good _ _ V).
  - destruct E as [->|(x & _ & E)]; [constructor|exact (attr_good _ _ E)].
  - now apply white_good.
Qed.

Lemma withText_app f a b : withText (withText f a) b = withText f (b ++ a).
Proof. unfold withText. cbn. now rewrite app_assoc. Qed.
Lemma withText_nil f : withText f [] = f.
Proof. now destruct f. Qed.
Lemma add_text a f fs root : addText a (f :: fs, root) = Some (withText f [a] :: fs, root).
Proof. reflexivity. Qed.
Lemma run_cdata_from c : good c -> forall k f fs root rest, k <= 2 -> without "]]>" (repeat "]"%char k ++ c) ->
  run (Cdata k) (f :: fs, root) (c ++ chars "]]>" ++ rest) = run Content (withText f (rev (repeat "]"%char k ++ c)) :: fs, root) rest.
Proof.
  induction 1 as [|a c Ha Hc IH]; intros k f fs root rest D W.
  - destruct k as [|[|[|k]]]; [destruct f; reflexivity|reflexivity|reflexivity|lia].
  - cbn [app run]. unfold step at 1. rewrite (good_xml a Ha). destruct (Ascii.eqb a "]") eqn:E.
    + apply Ascii.eqb_eq in E. subst a. destruct k as [|[|[|k]]]; [| | |lia].
      * cbn [Nat.ltb Nat.leb]. unfold still. rewrite IH; [reflexivity|lia|exact W].
      * cbn [Nat.ltb Nat.leb]. unfold still. rewrite IH; [reflexivity|lia|exact W].
      * cbn [Nat.ltb Nat.leb]. rewrite add_text. unfold within. rewrite IH; [|lia|exact (without_tail _ _ _ W)]. rewrite withText_app. cbn [repeat app rev]. now rewrite <- !app_assoc.
    + destruct (Ascii.eqb a ">" && Nat.eqb k 2) eqn:F.
      * apply andb_prop in F as [F1 F2]. apply Ascii.eqb_eq in F1. apply Nat.eqb_eq in F2. subst. exfalso. apply W. exists [], c. reflexivity.
      * destruct k as [|[|[|k]]]; [| | |lia]; cbn [Nat.iter nat_rect]; rewrite ?add_text; unfold within; (rewrite IH; [|lia|]); rewrite ?withText_app.
        -- cbn [repeat app rev]. reflexivity.
        -- exact (without_tail _ _ _ W).
        -- cbn [repeat app rev]. now rewrite <- !app_assoc.
        -- exact (without_tail _ _ _ (without_tail _ _ _ W)).
        -- cbn [repeat app rev]. now rewrite <- !app_assoc.
        -- exact (without_tail _ _ _ (without_tail _ _ _ (without_tail _ _ _ W))).
Qed.

(** * Texts *)

Lemma run_text_spelled s l : textSpelled s l -> forall f fs root rest,
  run Content (f :: fs, root) (l ++ rest) = run Content (withText f (rev (chars s)) :: fs, root) rest.
Proof.
  induction 1 as [|a s r P N1 N2 _ _ IH|a l s r H _ IH|c s r P W _ IH|l s r H _ IH|l s r H _ IH]; intros f fs root rest.
  - cbn [chars list_ascii_of_string rev]. now rewrite withText_nil.
  - cbn [app]. rewrite content_plain; [|now apply plain_good|now apply Ascii.eqb_neq|now apply Ascii.eqb_neq]. rewrite IH, withText_app. reflexivity.
  - rewrite <- app_assoc, (content_reference a) by exact H. rewrite IH, withText_app. reflexivity.
  - rewrite <- !app_assoc. transitivity (run (Cdata 0) (f :: fs, root) (chars c ++ chars "]]>" ++ r ++ rest)); [reflexivity|].
    rewrite run_cdata_from; [|now apply plain_all|lia|exact W]. cbn [repeat app]. rewrite IH, withText_app, chars_app, rev_app_distr. reflexivity.
  - rewrite <- app_assoc, run_comment by exact H. apply IH.
  - rewrite <- app_assoc, run_instruction by exact H. apply IH.
Qed.
Lemma text_good s l : textSpelled s l -> good l.
Proof.
  induction 1 as [|a s r P N1 N2 _ _ IH|a l s r H _ IH|c s r P W _ IH|l s r H _ IH|l s r H _ IH].
  - constructor.
  - constructor; [now apply plain_good|exact IH].
  - apply Forall_app. split; [exact (reference_good a l H)|exact IH].
  - apply Forall_app. split; [repeat constructor|]. apply Forall_app. split; [now apply plain_all|]. apply Forall_app. split; [repeat constructor|exact IH].
  - apply Forall_app. split; [now apply comment_good|exact IH].
  - apply Forall_app. split; [now apply instruction_good|exact IH].
Qed.

(** * Elements *)

Definition theElements (env : list (string * string)) : list dom -> option (list xelem) :=
  fix go ch := match ch with
               | [] => Some []
               | DText _ :: t => go t
               | c :: t => match elements env c, go t with Some e, Some es => Some (e :: es) | _, _ => None end
               end.
Lemma elements_app env a b : theElements env (a ++ b) =
  match theElements env a, theElements env b with Some x, Some y => Some (x ++ y) | _, _ => None end.
Proof.
  induction a as [|[s|tag attrs ch] a IH]; [cbn; now destruct (theElements env b)|exact IH|].
  cbn [app theElements]. destruct (elements env (DElem tag attrs ch)); [|reflexivity]. rewrite IH. destruct (theElements env a); [|reflexivity]. now destruct (theElements env b).
Qed.

(** The default namespace. *)
Definition defaultIs (env : list (string * string)) (uri : string) : Prop := (match dget env "" with Some u => u | None => "" end) = uri.
Definition keyOk (k : string) : Prop := xmlName k \/ k = "xmlns".
Lemma declared_cons kv attrs : declared (kv :: attrs) = declared [kv] ++ declared attrs.
Proof. unfold declared. cbn [flat_map]. now rewrite app_nil_r. Qed.
Lemma name_not_xmlns k : xmlName k -> String.eqb k "xmlns" = false.
Proof. intros [_ H]. now apply String.eqb_neq. Qed.
Lemma declared_default attrs env uri : Forall (fun kv => keyOk (fst kv)) attrs -> defaultIs env uri ->
  defaultIs (declared attrs ++ env) (match find (fun kv => String.eqb (fst kv) "xmlns") attrs with Some kv => snd kv | None => uri end).
Proof.
  intros H D. induction H as [|[k v] attrs Hk _ IH]; [exact D|]. rewrite declared_cons. destruct Hk as [Hk|Hk]; cbn [fst] in Hk.
  - rewrite (declared_none k v Hk). cbn [find fst]. rewrite (name_not_xmlns k Hk). exact IH.
  - subst k. reflexivity.
Qed.
Lemma own_attrs (attrs : list (string * string)) : Forall (fun kv => keyOk (fst kv)) attrs ->
  filter (fun '(k, _) => match declared [(k, "")] with [] => true | _ => false end) attrs = filter (fun kv => negb (String.eqb (fst kv) "xmlns")) attrs /\
  Forall (fun kv => xmlName (fst kv)) (filter (fun kv => negb (String.eqb (fst kv) "xmlns")) attrs).
Proof.
  induction 1 as [|[k v] attrs Hk _ [I1 I2]]; [split; [reflexivity|constructor]|]. cbn [filter fst]. destruct Hk as [Hk|Hk]; cbn [fst] in Hk.
  - rewrite (declared_none k "" Hk), (name_not_xmlns k Hk). cbn [negb]. rewrite I1. split; [reflexivity|]. now constructor.
  - subst k. cbn. now split.
Qed.
Lemma tag_in_default env uri tag : xmlName tag -> defaultIs env uri -> elementName env tag = Some (if String.eqb uri "" then tag else "{" ++ uri ++ "}" ++ tag)%string.
Proof. intros H D. unfold elementName. rewrite (name_split tag H), D. unfold expanded. now destruct (String.eqb uri ""). Qed.

Lemma settled_text f : rev (f_done (settle f)) = rev (f_done f) ++ match f_text f with [] => [] | t => [DText (text (rev t))] end.
Proof. unfold settle. cbn [f_done]. destruct (f_text f); [now rewrite app_nil_r|reflexivity]. Qed.
Definition startsWithElement (m : list dom) : Prop := match m with DText _ :: _ => False | _ => True end.

Scheme elem_min := Minimality for elemSpelled Sort Prop
  with children_min := Minimality for childrenSpelled Sort Prop.
Combined Scheme spelled_min from elem_min, children_min.

Lemma start_facts tag attrs l : startSpelled tag attrs l -> xmlName tag /\ Forall (fun kv => keyOk (fst kv)) attrs.
Proof.
  intros (ls & w & T & _ & A & _ & _). split; [exact T|]. induction A as [|kv l' attrs ls H _ IH]; [constructor|]. constructor; [|exact IH]. destruct H; assumption.
Qed.
Lemma start_good tag attrs l : startSpelled tag attrs l -> good l.
Proof.
  intros (ls & w & T & _ & A & W & ->). apply Forall_app. split; [exact (goodAll_name tag T)|]. apply Forall_app. split; [|now apply white_good].
  induction A as [|kv l' attrs ls H _ IH]; [constructor|]. cbn [List.concat]. apply Forall_app. split; [exact (attr_good _ _ H)|exact IH].
Qed.
Lemma run_close_spaces tag w p rest : spaces w -> run (CloseEnd tag) p (w ++ rest) = run (CloseEnd tag) p rest.
Proof. induction 1 as [|a w [Ha Hg] _ IH]; [reflexivity|]. cbn [app run]. unfold step. rewrite (good_xml a Hg), Ha. unfold still. exact IH. Qed.
Lemma run_close_spelled tag w p rest : xmlName tag -> white w ->
  run Content p (chars "</" ++ chars tag ++ w ++ ">"%char :: rest) = match closeTag tag p with Some p => run Content p rest | None => None end.
Proof.
  intros H W. destruct (name_chars tag H) as (a & t & E & Ha & Hg & Ht). apply white_spaces in W. cbn [chars list_ascii_of_string app run]. unfold step at 1. change (isXmlChar "<") with true.
  change (Ascii.eqb "<" "<") with true. cbv iota. unfold still. cbn [app run]. unfold step at 1. change (isXmlChar "/") with true. change (Ascii.eqb "/" "/") with true. cbv iota. unfold still.
  fold (chars tag). rewrite E. cbn [app run]. unfold step at 1. rewrite (good_xml a Hg), Ha. unfold still. rewrite run_close_name by exact Ht.
  assert (En : name (rev t ++ [a]) = tag) by (unfold name; rewrite rev_app_distr, rev_involutive; cbn [rev app]; rewrite <- E; apply text_chars).
  destruct W as [|b w [Hb Gb] Hw].
  - cbn [app run]. unfold step. change (isXmlChar ">") with true. change (nameChar ">") with false. change (isXmlSpace ">") with false. change (Ascii.eqb ">" ">") with true. cbv iota.
    rewrite En. unfold within. now destruct (closeTag tag p).
  - cbn [app run]. unfold step at 1. rewrite (good_xml b Gb), (space_not_name b Hb), Hb. unfold still. rewrite run_close_spaces by exact Hw. cbn [run]. unfold step.
    change (isXmlChar ">") with true. change (isXmlSpace ">") with false. change (Ascii.eqb ">" ">") with true. cbv iota. rewrite En. unfold within. now destruct (closeTag tag p).
Qed.

Definition readsAs (e : xelem) (d : dom) : Prop :=
  match d with DText _ => False | DElem _ _ _ => True end /\ forall env uri, defaultIs env uri -> elements env d = Some (inNamespace uri e).

Lemma elements_of tag attrs s ch children : xmlName tag -> Forall (fun kv => keyOk (fst kv)) attrs ->
  (forall env uri, defaultIs env uri -> theElements env children = Some (map (inNamespace uri) ch)) ->
  (match children with DText t :: _ => Some t | _ => None end) = textOf s ->
  readsAs (XElem tag attrs (textOf s) ch) (DElem tag attrs children).
Proof.
  intros T K C X. split; [exact Logic.I|]. intros env uri D. pose proof (declared_default attrs env uri K D) as D'.
  destruct (own_attrs attrs K) as [O1 O2]. cbn [elements inNamespace]. fold (theElements (declared attrs ++ env)).
  rewrite (tag_in_default _ _ tag T D'), O1, (attr_names _ _ O2), (C _ _ D'), X. reflexivity.
Qed.

Lemma elements_spelled :
  (forall e l, elemSpelled e l -> good l /\ exists d, readsAs e d /\
     forall p rest, run Content p (l ++ rest) = match putElem d p with Some p => run Content p rest | None => None end) /\
  (forall es l, childrenSpelled es l -> good l /\
     forall f, exists F M, f_tag F = f_tag f /\ f_attrs F = f_attrs f /\
       rev (f_done (settle F)) = rev (f_done (settle f)) ++ M /\ startsWithElement M /\
       (forall env uri, defaultIs env uri -> theElements env M = Some (map (inNamespace uri) es)) /\
       forall fs root rest, run Content (f :: fs, root) (l ++ rest) = run Content (F :: fs, root) rest).
Proof.
  apply spelled_min.
  - intros tag attrs s children start l body w St Tx _ (Gb & B) W.
    destruct (start_facts _ _ _ St) as [T K]. destruct (run_start_spelled _ _ _ St) as (Di & m & S & R).
    split.
    { apply Forall_app. split; [repeat constructor|]. apply Forall_app. split; [exact (start_good _ _ _ St)|]. apply Forall_app. split; [repeat constructor|].
      apply Forall_app. split; [exact (text_good _ _ Tx)|]. apply Forall_app. split; [exact Gb|]. apply Forall_app. split; [repeat constructor|].
      apply Forall_app. split; [exact (goodAll_name tag T)|]. apply Forall_app. split; [now apply white_good|repeat constructor]. }
    set (f0 := {| f_tag := tag; f_attrs := attrs; f_done := []; f_text := [] |}).
    destruct (B (withText f0 (rev (chars s)))) as (F & M & E1 & E2 & E3 & E4 & E5 & E6).
    exists (DElem tag attrs (rev (f_done (settle F)))). split.
    + assert (E3' : rev (f_done (settle F)) = (match rev (chars s) with [] => [] | t => [DText (text (rev t))] end) ++ M).
      { rewrite E3, settled_text. cbn [withText f_done f_text rev app]. unfold f0. cbn [f_text f_done rev app]. now rewrite app_nil_r. }
      rewrite E3'. apply elements_of; [exact T|exact K| |].
      * intros env uri D. rewrite elements_app, (E5 env uri D). now destruct (rev (chars s)).
      * destruct s as [|a s]; [cbn; destruct M as [|[]]; [reflexivity|contradiction|reflexivity]|].
        destruct (rev (chars (String a s))) as [|b t] eqn:V.
        { exfalso. apply (f_equal (@List.length ascii)) in V. rewrite rev_length in V. discriminate. }
        cbn [app]. rewrite <- V, rev_involutive, text_chars. reflexivity.
    + intros p rest. rewrite <- !app_assoc. cbn [app]. rewrite R. cbn [run]. rewrite (S p ">"%char) by reflexivity. unfold inTag. change (isXmlSpace ">") with false. change (Ascii.eqb ">" ">") with true. cbv iota.
      rewrite rev_involutive. unfold openTag. rewrite Di. unfold within. fold f0. rewrite (run_text_spelled s l Tx), E6.
      rewrite (run_close_spelled tag w) by assumption. cbn [closeTag withText f_tag f0] in *. rewrite E1, String.eqb_refl, E2. now destruct p.
  - intros tag attrs start St. destruct (start_facts _ _ _ St) as [T K]. destruct (run_start_spelled _ _ _ St) as (Di & m & S & R). split.
    { repeat (apply Forall_app; split); try (now repeat constructor). exact (start_good _ _ _ St). }
    exists (DElem tag attrs []). split; [exact (elements_of tag attrs "" [] [] T K (fun _ _ _ => eq_refl) eq_refl)|].
    intros p rest. rewrite <- !app_assoc. cbn [app]. rewrite R. cbn [chars list_ascii_of_string app run]. rewrite (S p "/"%char) by reflexivity.
    unfold inTag. change (isXmlSpace "/") with false. change (Ascii.eqb "/" ">") with false. change (Ascii.eqb "/" "/") with true. cbv iota. unfold still.
    unfold step. change (isXmlChar ">") with true. change (Ascii.eqb ">" ">") with true. cbv iota. rewrite rev_involutive. unfold openTag. rewrite Di.
    cbn [closeTag f_tag f_attrs]. rewrite String.eqb_refl. cbn [settle f_text f_done rev]. destruct p as [fs root]. cbn [fst snd]. unfold within. destruct (putElem _ _); reflexivity.
  - split; [constructor|]. intro f. exists f, []. rewrite app_nil_r. repeat split.
  - intros e es l s r rest _ (Gl & d & [Dd De] & Rd) Tx _ (Gr & IH). split.
    { repeat (apply Forall_app; split); [exact Gl|exact (text_good _ _ Tx)|exact Gr]. }
    intro f. set (f1 := {| f_tag := f_tag (settle f); f_attrs := f_attrs (settle f); f_done := d :: f_done (settle f); f_text := [] |}).
    destruct (IH (withText f1 (rev (chars s)))) as (F & M & E1 & E2 & E3 & E4 & E5 & E6).
    exists F, (d :: (match rev (chars s) with [] => [] | t => [DText (text (rev t))] end) ++ M). split; [exact E1|]. split; [exact E2|]. split.
    { rewrite E3, settled_text. cbn [withText f_done f_text f1 rev]. rewrite app_nil_r, <- !app_assoc. reflexivity. }
    split; [now destruct d|]. split.
    + intros env uri D. destruct d as [x|dt da dc]; [contradiction|]. cbn [theElements map]. rewrite (De env uri D).
      fold (theElements env). rewrite elements_app, (E5 env uri D). now destruct (rev (chars s)).
    + intros fs root rest'. rewrite <- !app_assoc, Rd. cbn [putElem]. fold f1. rewrite (run_text_spelled s r Tx). apply E6.
Qed.

(** * Documents *)

Lemma outside_run l : outside l -> good l /\ forall root rest, run Content ([], root) (l ++ rest) = run Content ([], root) rest.
Proof.
  induction 1 as [|w l W _ [G R]|c l C _ [G R]|c l C _ [G R]].
  - split; [constructor|reflexivity].
  - split; [apply Forall_app; split; [now apply white_good|exact G]|]. intros root rest. rewrite <- app_assoc, run_white_top by now apply white_spaces. apply R.
  - split; [apply Forall_app; split; [now apply comment_good|exact G]|]. intros root rest. rewrite <- app_assoc, run_comment by exact C. apply R.
  - split; [apply Forall_app; split; [now apply instruction_good|exact G]|]. intros root rest. rewrite <- app_assoc, run_instruction by exact C. apply R.
Qed.
Lemma document_good e t : documentSpelled e t -> good (chars t).
Proof.
  intros (d & before & root & after & D & B & E & A & ->). repeat (apply Forall_app; split); [|exact (proj1 (outside_run _ B))|exact (proj1 (proj1 elements_spelled e root E))|exact (proj1 (outside_run _ A))].
  destruct D as [->|D]; [constructor|now apply declaration_good].
Qed.
Lemma spelled_parse e t : documentSpelled e t -> etreeParse t = Some (inNamespace "" e).
Proof.
  intro S. assert (G := document_good e t S). destruct S as (d & before & root & after & D & B & E & A & C).
  destruct (proj1 elements_spelled e root E) as (_ & x & [Hx X] & R).
  unfold etreeParse, parseDom. rewrite lineEnds_same by exact G. rewrite C.
  transitivity (match match run Content ([], None) (before ++ root ++ after) with Some (Content, ([], Some d)) => Some d | _ => None end with Some d => elements xmlPrefix d | None => None end).
  { destruct D as [->|D]; [reflexivity|]. now rewrite run_declaration. }
  rewrite (proj2 (outside_run _ B)), R. cbn [putElem]. rewrite <- (app_nil_r after), (proj2 (outside_run _ A)). cbn [run]. apply X. reflexivity.
Qed.

Lemma returns_lineEnds (both : bool) l : Forall (fun a => Ascii.eqb a "013" = false) l ->
  lineEnds (flat_map (fun a => if Ascii.eqb a "010" then if both then ["013"; "010"]%char else ["013"]%char else [a]) l) = l.
Proof.
  induction 1 as [|a l Ha Hl IH]; [reflexivity|]. cbn [flat_map]. destruct (Ascii.eqb_spec a "010") as [->|N].
  - destruct both.
    + change (lineEnds (["013"; "010"]%char ++ ?x)) with ("010"%char :: lineEnds x). now rewrite IH.
    + set (m := flat_map _ l) in *. assert (Q : match m with b :: _ => Ascii.eqb b "010" = false | [] => True end).
      { unfold m. destruct l as [|b l']; [exact Logic.I|]. cbn [flat_map]. destruct (Ascii.eqb b "010") eqn:E; [reflexivity|exact E]. }
      clearbody m. cbn [app lineEnds]. change (Ascii.eqb "013" "013") with true. cbv iota. destruct m as [|b m']; [now rewrite <- IH|]. rewrite Q. now rewrite IH.
  - cbn [app lineEnds]. rewrite Ha. now rewrite IH.
Qed.
Lemma spelled_returns both e t : documentSpelled e t -> etreeParse (withReturns both t) = Some (inNamespace "" e).
Proof.
  intro S. rewrite <- (spelled_parse e t S). unfold etreeParse, parseDom, withReturns. rewrite chars_text.
  assert (G := document_good e t S). rewrite returns_lineEnds; [now rewrite lineEnds_same|].
  eapply Forall_impl; [|exact G]. intros a Ha. now apply good_cr.
Qed.
