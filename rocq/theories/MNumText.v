(** Python 2 number formatting and parsing: [str.split], [" ".join], ["%15s"],
    [str(int)], [int(text)], ["%.kf"], [str(float)], [float(text)], and the
    hexadecimal forms of fixed-width integers.
    Nothing here models code of /repo; numbers and text meet in the class
    [NumText], whose IEEE instance is in NumFText.v. *)
From Verif Require Export MText Num.
Local Open Scope string_scope.
Local Open Scope list_scope.

(* ------------------------------------------------------------------ *)
(** * Words *)

(** [s.split()]. [cur] is the word being read, reversed. *)
Definition flush (cur : list ascii) : list string := match cur with [] => [] | _ => [text (rev cur)] end.
Fixpoint splitFrom (cur l : list ascii) : list string :=
  match l with
  | [] => flush cur
  | a :: t => if isSpace a then flush cur ++ splitFrom [] t else splitFrom (a :: cur) t
  end.
Definition split (s : string) : list string := splitFrom [] (chars s).

(** [s.split(c)] for one character: the pieces between its occurrences. *)
Fixpoint splitAtFrom (c : ascii) (cur l : list ascii) : list string :=
  match l with
  | [] => [text (rev cur)]
  | a :: t => if Ascii.eqb a c then text (rev cur) :: splitAtFrom c [] t else splitAtFrom c (a :: cur) t
  end.
Definition splitAt (c : ascii) (s : string) : list string := splitAtFrom c [] (chars s).

(** [sep.join(words)]. *)
Fixpoint join (sep : string) (ws : list string) : string :=
  match ws with
  | [] => ""
  | [w] => w
  | w :: t => (w ++ sep ++ join sep t)%string
  end.

(** ["%ws" % s]: blanks on the left up to a width. *)
Definition padLeft (w : nat) (s : string) : string :=
  (text (repeat " "%char (w - String.length s)) ++ s)%string.

(* ------------------------------------------------------------------ *)
(** * Digits *)

Definition digitChar (d : N) : ascii := ascii_of_N (48 + d).
Definition isDigit (a : ascii) : bool := let n := N_of_ascii a in ((48 <=? n) && (n <=? 57))%N.
Definition digitVal (a : ascii) : N := (N_of_ascii a - 48)%N.

(** The decimal digits of a natural number, most significant first. *)
Fixpoint decAux (fuel : nat) (n : N) (acc : list ascii) : list ascii :=
  let acc' := digitChar (n mod 10) :: acc in
  match fuel with
  | O => acc'
  | S f => if (n / 10 =? 0)%N then acc' else decAux f (n / 10) acc'
  end.
Definition decimal (n : N) : list ascii := decAux (N.size_nat n) n [].
(** The number some decimal digits denote. *)
Definition readDigits (l : list ascii) : N := fold_left (fun v a => 10 * v + digitVal a)%N l 0%N.

Fixpoint span {A} (p : A -> bool) (l : list A) : list A * list A :=
  match l with
  | [] => ([], [])
  | x :: t => if p x then let '(a, b) := span p t in (x :: a, b) else ([], l)
  end.

(** An optional sign. *)
Definition takeSign (l : list ascii) : bool * list ascii :=
  match l with
  | a :: t => if Ascii.eqb a "-" then (true, t) else if Ascii.eqb a "+" then (false, t) else (false, l)
  | [] => (false, [])
  end.

(** [str(n)] for an integer. *)
Definition natText (n : nat) : string := text (decimal (N.of_nat n)).
Definition zText (z : Z) : string :=
  if (z <? 0)%Z then String "-" (text (decimal (Z.abs_N z))) else text (decimal (Z.abs_N z)).

(** [int(text)]. *)
Definition parseInt (s : string) : res Z :=
  let '(neg, l) := takeSign (chars (strip s)) in
  let '(ds, r) := span isDigit l in
  match ds, r with
  | _ :: _, [] => let v := Z.of_N (readDigits ds) in Ok (if neg then - v else v)%Z
  | _, _ => Err ValueError
  end.

(** Fixed-width lower-case hexadecimal, most significant digit first
    ([struct.pack(">…").encode("hex")]). *)
Definition hexChar (d : N) : ascii := if (d <? 10)%N then digitChar d else ascii_of_N (87 + d).
Fixpoint hexDigits (w : nat) (n : N) : list ascii :=
  match w with
  | O => []
  | S w' => hexDigits w' (n / 16) ++ [hexChar (n mod 16)]
  end.
Definition hexVal (a : ascii) : option N :=
  let n := N_of_ascii a in
  if ((48 <=? n) && (n <=? 57))%N then Some (n - 48)%N
  else if ((97 <=? n) && (n <=? 102))%N then Some (n - 87)%N
  else if ((65 <=? n) && (n <=? 70))%N then Some (n - 55)%N
  else None.
Definition readHexDigits (l : list ascii) : option N :=
  fold_left (fun v a => match v, hexVal a with Some v, Some d => Some (16 * v + d)%N | _, _ => None end) l (Some 0%N).
(** [struct.unpack(">…", text.decode("hex"))] for [w] hexadecimal digits: a
    TypeError for text that is not pairs of hexadecimal digits, struct.error for
    the wrong number of bytes. *)
Definition parseHex (w : nat) (s : string) : res N :=
  match readHexDigits (chars s) with
  | None => Err TypeError
  | Some n =>
      if Nat.odd (String.length s) then Err TypeError
      else if Nat.eqb (String.length s) w then Ok n else Err StructError
  end.

(* ------------------------------------------------------------------ *)
(** * Decimal numbers *)

(** What a float literal says: (-1)^neg * m * 10^k, an infinity or NaN. *)
Inductive numeral : Type :=
| NumDec (neg : bool) (m : N) (k : Z)
| NumInf (neg : bool)
| NumNan.

(** The grammar of Python 2's [float(text)]. *)
Definition parseNumeral (s : string) : option numeral :=
  let '(neg, l) := takeSign (chars (strip s)) in
  let w := lower (text l) in
  if String.eqb w "inf" || String.eqb w "infinity" then Some (NumInf neg)
  else if String.eqb w "nan" then Some NumNan
  else
    let '(ip, r) := span isDigit l in
    let '(fp, r2) := match r with
                     | a :: t => if Ascii.eqb a "." then span isDigit t else ([], r)
                     | [] => ([], [])
                     end in
    match ip ++ fp with
    | [] => None
    | ds =>
        let m := readDigits ds in
        let f := Z.of_nat (List.length fp) in
        match r2 with
        | [] => Some (NumDec neg m (- f))
        | a :: t =>
            if Ascii.eqb (lowerChar a) "e" then
              let '(eneg, t1) := takeSign t in
              let '(ed, r3) := span isDigit t1 in
              match ed, r3 with
              | _ :: _, [] =>
                  let e := Z.of_N (readDigits ed) in
                  Some (NumDec neg m ((if eneg then - e else e) - f))
              | _, _ => None
              end
            else None
        end
    end.

Definition signText (neg : bool) : string := if neg then "-" else "".
Definition zeros (n : nat) : list ascii := repeat "0"%char n.

(** ["%.kf"] of a number rounded to [k] decimals, [NumDec neg m (-k)]. *)
Definition fixText (n : numeral) : string :=
  match n with
  | NumDec neg m k =>
      let f := Z.to_nat (- k) in
      let ds := decimal m in
      let ds := (zeros (S f - List.length ds) ++ ds) in
      let i := (List.length ds - f)%nat in
      (signText neg ++ text (firstn i ds) ++ match f with O => "" | _ => "." ++ text (skipn i ds) end)%string
  | NumInf neg => (signText neg ++ "inf")%string
  | NumNan => "nan"
  end.

(** [str(x)] in Python 2 (["%.12g"], with ".0" added to what would look like an
    integer) of a number rounded to 12 significant digits. *)
Definition dropZeros (ds : list ascii) : list ascii := rev (dropWhile (Ascii.eqb "0") (rev ds)).
Definition expText (e : Z) : string :=
  let ds := decimal (Z.abs_N e) in
  ((if (e <? 0)%Z then "e-" else "e+") ++ text (zeros (2 - List.length ds) ++ ds))%string.
Definition sigText (n : numeral) : string :=
  match n with
  | NumDec neg m k =>
      (signText neg ++
       if (m =? 0)%N then "0.0"
       else
         let all := decimal m in
         let e := (k + Z.of_nat (List.length all) - 1)%Z in   (* exponent of the first digit *)
         let ds := dropZeros all in
         if (e <? -4)%Z || (12 <=? e)%Z then
           text (firstn 1 ds) ++ match skipn 1 ds with [] => "" | t => "." ++ text t end ++ expText e
         else if (e <? 0)%Z then "0." ++ text (zeros (Z.to_nat (- e) - 1) ++ ds)
         else
           let i := S (Z.to_nat e) in
           text (firstn i ds ++ zeros (i - List.length ds)) ++ "." ++
           match skipn i ds with [] => "0" | t => text t end)%string
  | NumInf neg => (signText neg ++ "inf")%string
  | NumNan => "nan"
  end.

(* ------------------------------------------------------------------ *)
(** * Numbers and text *)

Class NumText (T : Type) : Type := {
  tround  : numeral -> T;         (* the float nearest to a decimal number *)
  tfixed  : nat -> T -> numeral;  (* rounded half-even to so many decimals *)
  tsig12  : T -> numeral;         (* rounded half-even to 12 significant digits *)
  tbits32 : T -> N;               (* bit pattern of np.float32(x) *)
  tof32   : N -> T;
  tover32 : T -> bool;            (* a finite number too large for struct.pack(">f") *)
  tbits64 : T -> N;               (* bit pattern of the double *)
  tof64   : N -> T
}.

Section NumText.
  Context {T : Type} {X : NumText T}.

  (** [float(text)]. *)
  Definition parseFloat (s : string) : res T :=
    match parseNumeral s with Some n => Ok (tround n) | None => Err ValueError end.
  (** ["%.kf" % x]. *)
  Definition formatFixed (k : nat) (x : T) : string := fixText (tfixed k x).
  (** [str(x)]. *)
  Definition formatStr (x : T) : string := sigText (tsig12 x).
End NumText.
