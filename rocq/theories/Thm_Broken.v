(** Files that are not XML documents (C94). *)
From Coq Require Import List String Ascii ZArith NArith.
From Flocq Require Import BinarySingleNaN.
From Verif Require PConvertIeee.
From Verif Require Import NumF SpecBroken PNumText PXmlTextDoc PSpelling PSpellingCase PBroken.
Import ListNotations.
Local Open Scope string_scope.
Local Open Scope list_scope.

(** * C94 *)

(** A file that breaks a rule of XML at any place is refused as a whole, whatever comes
    after. *)
Theorem C94_refused :
  forall {T} {N : Num T} {X : NumText T} zip unzip limit c (fs : disk string) strict p tags ended l b rest,
    begun tags ended l -> broken tags ended b ->
    let t := text (l ++ b ++ rest) in fs p = Some t -> unzip t = None ->
    openList (T := T) (textFiles zip unzip) (S limit) c fs strict p = Err ParseError.
Proof. exact @broken_opens. Qed.
Print Assumptions C94_refused.

(** A file that was cut off anywhere before the end of its root is refused. *)
Theorem C94_cut :
  forall {T} {N : Num T} {X : NumText T} zip unzip limit c (fs : disk string) strict p l e root rest k,
    begun [] false l -> elemSpelled e root -> k < List.length (l ++ root) ->
    let t := text (firstn k (l ++ root ++ rest)) in fs p = Some t -> unzip t = None ->
    openList (T := T) (textFiles zip unzip) (S limit) c fs strict p = Err ParseError.
Proof. exact @cut_opens. Qed.
Print Assumptions C94_cut.

(** A Description ended as something else, given an attribute twice, with an unknown
    reference; a second root; and a file cut off before its last character. *)
Example C94_case (L : libm) : let N := ieeeNum L in
  let inside := chars "<ProcessList><Description>a" in
  let root := chars "<ProcessList></ProcessList>" in
  let opened t := openList (T := fl) (textFiles (fun t => t) (fun _ => None)) 1 15 (fun _ => Some t) false "a.clf" in
  begun ["Description"; "ProcessList"] false inside /\
  broken ["Description"; "ProcessList"] false (chars "</ProcessList>") /\
  broken ["Description"; "ProcessList"] false (chars "<a b='1' b='2'>") /\
  broken ["Description"; "ProcessList"] false (chars "&nbsp;") /\
  begun [] true root /\ broken [] true root /\
  opened "<ProcessList><Description>a</ProcessList></Description>" = Err ParseError /\
  opened "<ProcessList></ProcessList" = Err ParseError /\ is_ok (opened "<ProcessList></ProcessList>").
Proof.
  intros N inside root opened.
  assert (St : forall tag, nameb tag = true -> startSpelled tag [] (chars tag)).
  { intros tag H. exists [], []. split; [now apply name_check|]. repeat split; try constructor. now rewrite !app_nil_r. }
  assert (B : begun [] false []) by (apply (begun_outside [] []); [now left|constructor]).
  assert (E : elemSpelled (XElem "ProcessList" [] None []) root).
  { apply (elem_tags "ProcessList" [] "" [] (chars "ProcessList") [] [] []); [now apply St|constructor|constructor|constructor]. }
  assert (In_ : begun ["Description"; "ProcessList"] false inside).
  { apply (begun_element ["ProcessList"] (chars "<ProcessList>") "Description" [] (chars "Description") "a" (chars "a") [] []); [|now apply St| |constructor].
    - apply (begun_element [] [] "ProcessList" [] (chars "ProcessList") "" [] [] []); [exact B|now apply St|constructor|constructor].
    - apply (text_raw "a" "" []); [reflexivity|constructor]. }
  assert (We : broken ["Description"; "ProcessList"] false (chars "</ProcessList>")) by (apply (wrong_end _ _ "ProcessList" []); [now apply name_check|constructor|discriminate]).
  split; [exact In_|]. split; [exact We|].
  assert (At : forall v, forallb (valueb "'"%char) (chars v) = true -> attrSpelled ("b", v) (chars " b='" ++ chars v ++ ["'"%char])).
  { intros v H. replace (chars v ++ ["'"%char]) with (List.concat (map (fun a => [a]) (chars v)) ++ ["'"%char]).
    - apply (attr_spelled "b" v [" "%char] [] [] "'"%char (map (fun a => [a]) (chars v))); try attrParts. left. now apply name_check.
    - f_equal. induction (chars v) as [|a l IH]; [reflexivity|]. cbn [map List.concat app]. f_equal. apply IH. cbn [forallb] in H. apply andb_prop in H. apply H. }
  split.
  { apply (given_twice _ _ "a" [("b", "1"); ("b", "2")] (chars "a b='1' b='2'") [] [">"%char]); [|intro D; inversion_clear D as [|? ? D1 _]; apply D1; now left|constructor|now left].
    exists [chars " b='1'"; chars " b='2'"]. split; [now apply name_check|]. split; [|reflexivity]. constructor; [exact (At "1" eq_refl)|]. constructor; [exact (At "2" eq_refl)|constructor]. }
  split; [apply (unknown_reference _ _ "nbsp"); [now apply name_check|cbn; intuition discriminate]|].
  split; [apply (begun_done [] _ root []) in E; [exact E|exact B|constructor]|]. split; [exact (second_root _ root E)|].
  split; [|split].
  - exact (C94_refused (T := fl) (fun t => t) (fun _ => None) 0 15 _ false "a.clf" _ _ inside (chars "</ProcessList>") (chars "</Description>") In_ We eq_refl eq_refl).
  - refine (C94_cut (T := fl) (fun t => t) (fun _ => None) 0 15 _ false "a.clf" [] _ root [] 26 B E _ eq_refl eq_refl). apply PeanoNat.Nat.ltb_lt. reflexivity.
  - apply PConvertIeee.ok_of. vm_compute. reflexivity.
Qed.
