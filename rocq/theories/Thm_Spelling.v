(** The ways of writing a CLF file (C93), and its namespaces (C48). *)
From Coq Require Import List String Ascii ZArith NArith.
From Flocq Require Import BinarySingleNaN.
From Verif Require PConvertIeee.
From Verif Require Import NumF SpecSpelling PNumText PXmlTextDoc PSpelling PSpellingRead PSpellingCase.
Import ListNotations.
Local Open Scope string_scope.
Local Open Scope list_scope.

(** * C93 *)

(** A text that spells a document is parsed as the document, whatever was chosen of the
    kinds of quotes, the blanks in tags, references, CDATA sections, comments, processing
    instructions and empty tags; the default namespace goes into the tags. *)
Theorem C93_parsed :
  forall e t, documentSpelled e t -> etreeParse t = Some (inNamespace "" e).
Proof. exact spelled_parse. Qed.
Print Assumptions C93_parsed.

(** Lines may end as on any system. *)
Theorem C93_line_ends :
  forall both e t, documentSpelled e t -> etreeParse (withReturns both t) = Some (inNamespace "" e).
Proof. exact spelled_returns. Qed.
Print Assumptions C93_line_ends.

(** Two files that spell the same document, each with a namespace of its own or none, open
    as the same list, or with the same exception. *)
Theorem C93_opened :
  forall {T} {N : Num T} {X : NumText T} zip unzip limit c (fs : disk string) strict p p' t t' e e',
    fs p = Some t -> fs p' = Some t' -> unzip t = None -> unzip t' = None ->
    documentSpelled e t -> documentSpelled e' t' -> bare e = bare e' -> namespacesOk e -> namespacesOk e' ->
    openList (T := T) (textFiles zip unzip) limit c fs strict p = openList (textFiles zip unzip) limit c fs strict p'.
Proof. exact @spelled_opens. Qed.
Print Assumptions C93_opened.

(** * C48 *)

(** A whole document may use other namespaces and other separators in its tags. *)
Theorem C48_documents_alike :
  forall {T} {N : Num T} {X : NumText T} c (load : string -> res (option (plist T))) strict (l : plist T) e e',
    sameTypes e e' ->
    listRead c load strict l e = listRead c load strict l e' /\ readItem c load strict e = readItem c load strict e'.
Proof. exact (fun T N X c load strict l e e' H => conj (list_same c load strict e e' l H) (item_same c load e e' strict H)). Qed.
Print Assumptions C48_documents_alike.

Definition quoted (s : string) : string := text (chars s ++ [""""%char]).
(** The same document twice. *)
Definition oneWay : string :=
  ("<?xml version='1.0'?>" ++ lineFeed ++ "<!-- a look --><ProcessList xmlns='urn:x' id = 'a&amp;b'" ++ lineFeed ++ ">" ++
   "<Description>x &#x3c; y<![CDATA[ & z]]></Description><Group inBitDepth='10i'/></ProcessList >")%string.
Definition otherWay : string :=
  (quoted "<ProcessList id=" ++ quoted "a&#38;b" ++ "><Description>x &lt; y<?app here?> &amp; z</Description>" ++
   quoted "<Group inBitDepth=" ++ quoted "10i" ++ "></Group></ProcessList>" ++ lineFeed)%string.
Definition spelledDocument (ns : list (string * string)) : xelem :=
  XElem "ProcessList" (ns ++ [("id", "a&b")]) None [XElem "Description" [] (Some "x < y & z") []; XElem "Group" [("inBitDepth", "10i")] None []].


Example C93_case (L : libm) : let N := ieeeNum L in
  let e := spelledDocument [("xmlns", "urn:x")] in
  let e' := spelledDocument [] in
  let fs : disk string := fun p => if String.eqb p "a.clf" then Some oneWay else if String.eqb p "b.clf" then Some otherWay else None in
  documentSpelled e oneWay /\ documentSpelled e' otherWay /\ bare e = bare e' /\ namespacesOk e /\ namespacesOk e' /\
  openList (T := fl) (textFiles (fun t => t) (fun _ => None)) 1 15 fs true "a.clf" =
    openList (textFiles (fun t => t) (fun _ => None)) 1 15 fs true "b.clf" /\
  is_ok (openList (T := fl) (textFiles (fun t => t) (fun _ => None)) 1 15 fs true "a.clf").
Proof.
  intros N e e' fs.
  assert (At : forall k v v' q cs w1 w2 w3, nameb k = true -> white w1 -> w1 <> [] -> white w2 -> white w3 -> q = """"%char \/ q = "'"%char ->
            Forall2 (valueChar q) (chars v) cs -> List.concat cs = v' -> attrSpelled (k, v) (w1 ++ chars k ++ w2 ++ ["="%char] ++ w3 ++ [q] ++ v' ++ [q])).
  { intros k v v' q cs w1 w2 w3 K W1 N1 W2 W3 Q V <-. apply attr_spelled; try assumption. left. now apply name_check. }
  assert (W : forall n, white (repeat " "%char n)) by (intro n; apply Forall_forall; intros a Ha; apply repeat_spec in Ha; right; now right).
  assert (D10 : digitsOf 10 ["3"; "8"]%char 38) by (apply (digits_more 10 ["3"%char] 3 "8"%char 8); [apply digits_one|]; (split; [reflexivity|now left])).
  assert (D16 : digitsOf 16 ["3"; "c"]%char 60) by (apply (digits_more 16 ["3"%char] 3 "c"%char 12); [apply digits_one|]; (split; [reflexivity|now left])).
  assert (D : documentSpelled e oneWay).
  { exists (chars "<?xml version='1.0'?>"), (["010"%char] ++ chars "<!-- a look -->" ++ []).
    eexists. exists []. split; [|split; [|split; [|split; [constructor|]]]].
    - right. exists (chars " version='1.0'"), [], []. split; [|split; [constructor|split; [now left|split; [now apply without_check|reflexivity]]]].
      apply (At "version" "1.0" (chars "1.0") "'"%char (map (fun a => [a]) (chars "1.0")) [" "%char] [] []); attrParts.
    - apply outside_white; [now apply white_check|]. apply outside_comment; [|constructor]. exists (chars " a look "). split; [now apply plain_check|]. split; [now apply without_check|reflexivity].
    - eapply (elem_tags "ProcessList" [("xmlns", "urn:x"); ("id", "a&b")] "" _ (chars "ProcessList" ++ List.concat [chars " xmlns='urn:x'"; chars " id = 'a&amp;b'"] ++ ["010"%char]) [] _ [" "%char]); [|constructor| |apply (W 1)].
      + do 2 eexists. split; [now apply name_check|]. split; [cbn; repeat (constructor; [cbn; intuition discriminate|]); constructor|]. split; [|split; [|reflexivity]].
        * constructor; [|constructor; [|constructor]].
          -- apply (attr_spelled "xmlns" "urn:x" [" "%char] [] [] "'"%char (map (fun a => [a]) (chars "urn:x"))); attrParts.
          -- apply (At "id" "a&b" (chars "a&amp;b") "'"%char [["a"%char]; chars "&amp;"; ["b"%char]] [" "%char] [" "%char] [" "%char]); try attrParts.
             constructor; [apply value_itself; [split; discriminate|discriminate..]|]. constructor; [apply value_reference, (by_name "&" "amp"); now left|].
             constructor; [apply value_itself; [split; discriminate|discriminate..]|constructor].
        * now apply white_check.
      + eapply (more_children _ _ _ "" []); [|constructor|eapply (more_children _ _ _ "" []); [|constructor|constructor]].
        * eapply (elem_tags "Description" [] "x < y & z" [] (chars "Description") (chars "x " ++ chars "&#x3c;" ++ chars " y" ++ chars "<![CDATA[" ++ chars " & z" ++ chars "]]>" ++ []) [] []); [| |constructor|constructor].
          -- exists [], []. split; [now apply name_check|]. repeat split; constructor.
          -- apply (text_raw "x " "< y & z"); [reflexivity|]. apply (text_reference "<" (chars "&#x3c;")); [apply (by_hexadecimal "<" ["3"; "c"]%char); [left; left; split; discriminate|exact D16]|].
             apply (text_raw " y" " & z"); [reflexivity|]. apply (text_cdata " & z" ""); [now apply plain_check|now apply without_check|constructor].
        * apply (elem_empty "Group" [("inBitDepth", "10i")] (chars "Group" ++ List.concat [chars " inBitDepth='10i'"] ++ [])). do 2 eexists. split; [now apply name_check|].
          split; [cbn; repeat (constructor; [cbn; intuition discriminate|]); constructor|]. split; [|split; [constructor|reflexivity]]. constructor; [|constructor].
          apply (At "inBitDepth" "10i" (chars "10i") "'"%char (map (fun a => [a]) (chars "10i")) [" "%char] [] []); attrParts.
    - reflexivity. }
  assert (D' : documentSpelled e' otherWay).
  { exists [], []. eexists. exists (["010"%char] ++ []). split; [now left|]. split; [constructor|]. split; [|split; [apply outside_white; [now apply white_check|constructor]|]].
    - eapply (elem_tags "ProcessList" [("id", "a&b")] "" _ (chars "ProcessList" ++ List.concat [chars (" id=""a&#38;b""")] ++ []) [] _ []); [|constructor| |constructor].
      + do 2 eexists. split; [now apply name_check|]. split; [cbn; repeat (constructor; [cbn; intuition discriminate|]); constructor|]. split; [|split; [constructor|reflexivity]].
        constructor; [|constructor].
        apply (At "id" "a&b" (chars "a&#38;b") """"%char [["a"%char]; chars "&#38;"; ["b"%char]] [" "%char] [] []); try attrParts.
        constructor; [apply value_itself; [split; discriminate|discriminate..]|]. constructor; [apply value_reference, (by_decimal "&" ["3"; "8"]%char); [left; left; split; discriminate|exact D10]|].
        constructor; [apply value_itself; [split; discriminate|discriminate..]|constructor].
      + eapply (more_children _ _ _ "" []); [|constructor|eapply (more_children _ _ _ "" []); [|constructor|constructor]].
        * eapply (elem_tags "Description" [] "x < y & z" [] (chars "Description") (chars "x " ++ chars "&lt;" ++ chars " y" ++ chars "<?app here?>" ++ chars " " ++ chars "&amp;" ++ chars " z" ++ []) [] []); [| |constructor|constructor].
          -- exists [], []. split; [now apply name_check|]. repeat split; constructor.
          -- apply (text_raw "x " "< y & z"); [reflexivity|]. apply (text_reference "<" (chars "&lt;")); [apply (by_name "<" "lt"); right; now left|].
             apply (text_raw " y" " & z"); [reflexivity|]. apply text_instruction.
             { exists "a"%char, (chars "pp here"). split; [cbn; tauto|]. split; [now apply plain_check|]. split; [now apply without_check|]. split; [|reflexivity].
               intros x m l' r E. injection E as <- <- <- _. discriminate. }
             apply (text_raw " " "& z"); [reflexivity|]. apply (text_reference "&" (chars "&amp;")); [apply (by_name "&" "amp"); now left|]. apply (text_raw " z" ""); [reflexivity|constructor].
        * eapply (elem_tags "Group" [("inBitDepth", "10i")] "" [] (chars "Group" ++ List.concat [chars (" inBitDepth=""10i""")] ++ []) [] [] []); [|constructor|constructor|constructor]. do 2 eexists. split; [now apply name_check|].
          split; [cbn; repeat (constructor; [cbn; intuition discriminate|]); constructor|]. split; [|split; [constructor|reflexivity]]. constructor; [|constructor].
          apply (At "inBitDepth" "10i" (chars "10i") """"%char (map (fun a => [a]) (chars "10i")) [" "%char] [] []); attrParts.
    - reflexivity. }
  assert (Ns : namespacesOk e) by (cbn; repeat split; repeat constructor; cbn; intuition discriminate).
  assert (Ns' : namespacesOk e') by (cbn; repeat split; repeat constructor; cbn; intuition discriminate).
  split; [exact D|]. split; [exact D'|]. split; [reflexivity|]. split; [exact Ns|]. split; [exact Ns'|]. split.
  - exact (C93_opened (T := fl) (fun t => t) (fun _ => None) 1 15 fs true "a.clf" "b.clf" oneWay otherWay e e' eq_refl eq_refl eq_refl eq_refl D D' eq_refl Ns Ns').
  - apply PConvertIeee.ok_of. vm_compute. reflexivity.
Qed.

Example C48_documents_case :
  sameTypes (XElem "{urn:x}Process_List" [] None [XElem "{urn:x}LUT-1D" [("id", "a")] None []]) (XElem "ProcessList" [] None [XElem "LUT1D" [("id", "a")] None []]).
Proof. repeat constructor. Qed.
