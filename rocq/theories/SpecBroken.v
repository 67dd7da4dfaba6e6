(** Texts that are not documents. *)
From Coq Require Import List String Ascii NArith.
From Verif Require Export SpecSpelling.
Import ListNotations.
Local Open Scope string_scope.
Local Open Scope list_scope.

(** The beginning of a document: the elements open at its end, innermost first, and
    whether the root is complete. *)
Inductive begun : list string -> bool -> list ascii -> Prop :=
| begun_outside d before : d = [] \/ declaration d -> outside before -> begun [] false (d ++ before)
| begun_element tags l tag attrs start s t es body :
    begun tags false l -> startSpelled tag attrs start -> textSpelled s t -> childrenSpelled es body ->
    begun (tag :: tags) false (l ++ ["<"%char] ++ start ++ [">"%char] ++ t ++ body)
| begun_done l e root after : begun [] false l -> elemSpelled e root -> outside after -> begun [] true (l ++ root ++ after).

(** What comes after "<" up to some attribute, the attributes' names being what they may. *)
Definition tagBegun (tag : string) (attrs : list (string * string)) (l : list ascii) : Prop :=
  exists ls, xmlName tag /\ Forall2 attrSpelled attrs ls /\ l = chars tag ++ List.concat ls.

(** What cannot come next. *)
Inductive broken : list string -> bool -> list ascii -> Prop :=
(** the end of another element than the innermost *)
| wrong_end tags ended tag w : xmlName tag -> white w -> hd_error tags <> Some tag ->
    broken tags ended (chars "</" ++ chars tag ++ w ++ [">"%char])
(** an attribute given twice *)
| given_twice tags ended tag attrs l w tail : tagBegun tag attrs l -> ~ NoDup (map fst attrs) -> white w -> tail = [">"%char] \/ tail = chars "/>" ->
    broken tags ended (["<"%char] ++ l ++ w ++ tail)
(** attributes without a blank between them *)
| no_blank tags ended tag attrs l a : tagBegun tag attrs l -> attrs <> [] -> In a (chars firstLetters) -> broken tags ended (["<"%char] ++ l ++ [a])
(** an attribute without quotes *)
| no_quotes tags ended tag attrs l k w1 w2 w3 a : tagBegun tag attrs l -> xmlName k -> white w1 -> w1 <> [] -> white w2 -> white w3 ->
    printable a -> a <> " "%char -> a <> """"%char -> a <> "'"%char ->
    broken tags ended (["<"%char] ++ l ++ w1 ++ chars k ++ w2 ++ ["="%char] ++ w3 ++ [a])
(** "<" in an attribute *)
| angle_in_value tags ended tag attrs l k w1 w2 w3 q v cs : tagBegun tag attrs l -> xmlName k -> white w1 -> w1 <> [] -> white w2 -> white w3 ->
    q = """"%char \/ q = "'"%char -> Forall2 (valueChar q) v cs ->
    broken tags ended (["<"%char] ++ l ++ w1 ++ chars k ++ w2 ++ ["="%char] ++ w3 ++ [q] ++ List.concat cs ++ ["<"%char])
(** a reference to something unknown *)
| unknown_reference tags ended nm : xmlName nm -> ~ In nm ["amp"; "lt"; "gt"; "quot"; "apos"] -> broken tags ended (chars ("&" ++ nm ++ ";")%string)
(** a comment with two dashes in it *)
| dashes_in_comment tags ended c a : Forall plain c -> without "--" (c ++ ["-"%char]) -> plain a -> a <> ">"%char ->
    broken tags ended (chars "<!--" ++ c ++ chars "--" ++ [a])
(** a control character *)
| control_character tags ended a : control a -> broken tags ended [a]
(** text outside the root *)
| text_outside ended a : printable a -> a <> " "%char -> a <> "<"%char -> broken [] ended [a]
(** a second root *)
| second_root e l : elemSpelled e l -> broken [] true l.
