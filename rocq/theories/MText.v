(** Python 2 byte-string operations the modelled code uses: [str.lower],
    [str.strip], [str.rfind] of one character and [os.path.splitext].
    Nothing here models code of /repo. *)
From Verif Require Export Py.
Local Open Scope string_scope.
Local Open Scope list_scope.

Definition chars (s : string) : list ascii := list_ascii_of_string s.
Definition text (l : list ascii) : string := string_of_list_ascii l.

(** [str.lower] in the C locale. *)
Definition lowerChar (a : ascii) : ascii :=
  let n := N_of_ascii a in
  if ((65 <=? n) && (n <=? 90))%N then ascii_of_N (n + 32) else a.
Definition lower (s : string) : string := text (map lowerChar (chars s)).

(** The characters [str.split()] and [str.strip()] treat as white space:
    tab, line feed, vertical tab, form feed, carriage return, space. *)
Definition isSpace (a : ascii) : bool :=
  let n := N_of_ascii a in ((9 <=? n) && (n <=? 13) || (n =? 32))%N.

Fixpoint dropWhile {A} (p : A -> bool) (l : list A) : list A :=
  match l with
  | [] => []
  | x :: t => if p x then dropWhile p t else l
  end.
Definition strip (s : string) : string :=
  text (rev (dropWhile isSpace (rev (dropWhile isSpace (chars s))))).

(** [s.rfind(c)] for a single character: index of the last occurrence or -1. *)
Fixpoint rfindFrom (c : ascii) (l : list ascii) (i last : Z) : Z :=
  match l with
  | [] => last
  | x :: t => rfindFrom c t (i + 1) (if Ascii.eqb x c then i else last)
  end.
Definition rfind (c : ascii) (s : string) : Z := rfindFrom c (chars s) 0 (-1).

(** The second component of [os.path.splitext] (posixpath, Python 2.7): the part
    from the last dot on, if that dot is after the last slash and some character
    between them is not a dot. *)
Definition splitextExt (p : string) : string :=
  let sepIndex := rfind "/" p in
  let dotIndex := rfind "." p in
  if (sepIndex <? dotIndex)%Z then
    let name := slice (chars p) (Z.to_nat (sepIndex + 1)) (Z.to_nat dotIndex) in
    if existsb (fun a => negb (Ascii.eqb a ".")) name then text (skipn (Z.to_nat dotIndex) (chars p)) else ""
  else "".

(** [s[1:]]. *)
Definition tailStr (s : string) : string := match s with String _ t => t | EmptyString => "" end.
