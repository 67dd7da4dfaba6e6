(** Lemmas about number formatting and parsing. *)
From Coq Require Import Lia NArith Nnat.
From Verif Require Export MNumText PRegistry.
Local Open Scope list_scope.

(* ------------------------------------------------------------------ *)
(** * Digits *)

Lemma ten_cases (P : N -> Prop) :
  P 0%N -> P 1%N -> P 2%N -> P 3%N -> P 4%N -> P 5%N -> P 6%N -> P 7%N -> P 8%N -> P 9%N ->
  forall d, (d < 10)%N -> P d.
Proof.
  intros. assert (C : (d = 0 \/ d = 1 \/ d = 2 \/ d = 3 \/ d = 4 \/ d = 5 \/ d = 6 \/ d = 7 \/ d = 8 \/ d = 9)%N) by lia.
  repeat (destruct C as [->|C]; [assumption|]). now subst.
Qed.
Lemma digitChar_isDigit d : (d < 10)%N -> isDigit (digitChar d) = true.
Proof. revert d. apply ten_cases; reflexivity. Qed.
Lemma digitVal_Char d : (d < 10)%N -> digitVal (digitChar d) = d.
Proof. revert d. apply ten_cases; reflexivity. Qed.
Lemma digitChar_nz d : (0 < d < 10)%N -> Ascii.eqb "0" (digitChar d) = false.
Proof. intros [H0 H]. revert d H H0. apply (ten_cases (fun d => (0 < d)%N -> Ascii.eqb "0" (digitChar d) = false)); intros; try reflexivity; lia. Qed.

Lemma isDigit_not a : isDigit a = true ->
  isSpace a = false /\ Ascii.eqb a "-" = false /\ Ascii.eqb a "+" = false /\ Ascii.eqb a "." = false /\
  Ascii.eqb (lowerChar a) "e" = false /\ lowerChar a = a.
Proof. destruct a as [[] [] [] [] [] [] [] []]; vm_compute; intros; try discriminate; repeat split. Qed.

Definition digits (l : list ascii) : Prop := Forall (fun a => isDigit a = true) l.
Lemma digits_app l l' : digits l -> digits l' -> digits (l ++ l').
Proof. apply Forall_app_2 || (intros; apply Forall_app; now split). Qed.
Lemma digits_zeros n : digits (zeros n).
Proof. apply Forall_forall. intros x H. apply repeat_spec in H. now subst. Qed.

Lemma readDigits_from l v : fold_left (fun v a => 10 * v + digitVal a)%N l v =
  (v * 10 ^ N.of_nat (List.length l) + readDigits l)%N.
Proof.
  unfold readDigits. revert v. induction l as [|a l IH]; intros v.
  - cbn. lia.
  - cbn [fold_left List.length]. rewrite IH, (IH (10 * 0 + digitVal a)%N).
    rewrite Nat2N.inj_succ, N.pow_succ_r'. lia.
Qed.
Lemma readDigits_app l l' : readDigits (l ++ l') = (readDigits l * 10 ^ N.of_nat (List.length l') + readDigits l')%N.
Proof. unfold readDigits at 1. rewrite fold_left_app. apply readDigits_from. Qed.
Lemma readDigits_zeros n : readDigits (zeros n) = 0%N.
Proof.
  induction n as [|n IH]; [reflexivity|]. change (zeros (S n)) with (["0"%char] ++ zeros n).
  rewrite readDigits_app, IH. reflexivity.
Qed.
Lemma zeros_length n : List.length (zeros n) = n. Proof. apply repeat_length. Qed.
Lemma readDigits_lead n l : readDigits (zeros n ++ l) = readDigits l.
Proof. rewrite readDigits_app, readDigits_zeros. lia. Qed.
Lemma readDigits_trail n l : readDigits (l ++ zeros n) = (readDigits l * 10 ^ N.of_nat n)%N.
Proof. rewrite readDigits_app, readDigits_zeros, zeros_length. lia. Qed.
Lemma digitVal_lt a : isDigit a = true -> (digitVal a < 10)%N.
Proof. unfold isDigit, digitVal. intro H. apply andb_prop in H. destruct H as [H1 H2]. apply N.leb_le in H1, H2. lia. Qed.
Lemma readDigits_lt l : digits l -> (readDigits l < 10 ^ N.of_nat (List.length l))%N.
Proof.
  induction l as [|a l IH]; intro H; [cbn; lia|]. inversion H as [|? ? Ha Hl]; subst.
  change (a :: l) with ([a] ++ l). rewrite readDigits_app, app_length, Nat2N.inj_add, N.pow_add_r.
  specialize (IH Hl). pose proof (digitVal_lt a Ha). change (readDigits [a]) with (10 * 0 + digitVal a)%N.
  change (10 ^ N.of_nat (List.length [a]))%N with 10%N. nia.
Qed.

Lemma size_bound n : (n < 2 ^ N.of_nat (N.size_nat n))%N.
Proof.
  destruct n as [|p]; [reflexivity|]. change (N.size_nat (N.pos p)) with (Pos.size_nat p).
  induction p as [p IH|p IH|]; cbn [Pos.size_nat].
  - rewrite Nat2N.inj_succ, N.pow_succ_r'. change (N.pos p~1) with (2 * N.pos p + 1)%N. lia.
  - rewrite Nat2N.inj_succ, N.pow_succ_r'. change (N.pos p~0) with (2 * N.pos p)%N. lia.
  - reflexivity.
Qed.

(** The digits of [n] in front of an accumulator. *)
Lemma decAux_spec fuel : forall n acc, (n < 2 ^ N.of_nat fuel)%N ->
  exists ds, decAux fuel n acc = ds ++ acc /\ digits ds /\ ds <> [] /\ readDigits ds = n /\
    ((0 < n)%N -> exists d t, ds = digitChar d :: t /\ (0 < d < 10)%N) /\ ((n < 10)%N -> List.length ds = 1%nat).
Proof.
  induction fuel as [|f IH]; intros n acc H; cbn [decAux].
  - exists [digitChar (n mod 10)]. change (2 ^ N.of_nat 0)%N with 1%N in H. assert (n = 0)%N as -> by lia.
    split; [reflexivity|]. split; [repeat constructor|]. split; [discriminate|]. split; [reflexivity|]. split; [lia|reflexivity].
  - pose proof (N.mod_upper_bound n 10 ltac:(discriminate)) as Hm. pose proof (N.div_mod n 10 ltac:(discriminate)) as E.
    destruct (N.eqb_spec (n / 10) 0) as [Z|Z].
    + exists [digitChar (n mod 10)]. split; [reflexivity|]. split; [constructor; [now apply digitChar_isDigit|constructor]|].
      split; [discriminate|]. split; [cbn; rewrite digitVal_Char by assumption; lia|]. split; [|reflexivity].
      intro P. exists (n mod 10)%N, []. split; [reflexivity|lia].
    + destruct (IH (n / 10)%N (digitChar (n mod 10) :: acc)) as (ds & E1 & D & Ne & R & F & _).
      { rewrite Nat2N.inj_succ, N.pow_succ_r' in H. apply N.div_lt_upper_bound; lia. }
      exists (ds ++ [digitChar (n mod 10)]). split; [rewrite E1, <- app_assoc; reflexivity|].
      split; [apply digits_app; [assumption|constructor; [now apply digitChar_isDigit|constructor]]|].
      split; [now destruct ds|]. split.
      { rewrite readDigits_app, R. cbn. rewrite digitVal_Char by assumption. lia. }
      split.
      * intros _. destruct F as (d & t & -> & Hd); [lia|]. now exists d, (t ++ [digitChar (n mod 10)]).
      * intro. rewrite N.div_small in Z by assumption. now contradiction Z.
Qed.
Lemma decimal_spec n : digits (decimal n) /\ decimal n <> [] /\ readDigits (decimal n) = n /\
  ((0 < n)%N -> exists d t, decimal n = digitChar d :: t /\ (0 < d < 10)%N) /\ ((n < 10)%N -> List.length (decimal n) = 1%nat).
Proof.
  destruct (decAux_spec (N.size_nat n) n []) as (ds & E & H); [apply size_bound|].
  unfold decimal. rewrite E, app_nil_r. exact H.
Qed.
Lemma decimal_digits n : digits (decimal n). Proof. apply decimal_spec. Qed.
Lemma decimal_nonempty n : decimal n <> []. Proof. apply decimal_spec. Qed.
Lemma decimal_read n : readDigits (decimal n) = n. Proof. apply decimal_spec. Qed.
Lemma decimal_length n : (0 < n)%N ->
  (10 ^ (N.of_nat (List.length (decimal n)) - 1) <= n < 10 ^ N.of_nat (List.length (decimal n)))%N.
Proof.
  intro H. split.
  - destruct (decimal_spec n) as (_ & _ & R & F & _). destruct (F H) as (d & t & E & Hd). rewrite <- R, E at 2.
    change (digitChar d :: t) with ([digitChar d] ++ t). rewrite E. rewrite readDigits_app.
    change (readDigits [digitChar d]) with (10 * 0 + digitVal (digitChar d))%N. rewrite digitVal_Char by lia.
    cbn [List.length]. rewrite Nat2N.inj_succ, <- N.pred_sub, N.pred_succ. nia.
  - rewrite <- (decimal_read n) at 1. apply readDigits_lt, decimal_digits.
Qed.

Lemma span_digits l r : digits l -> match r with a :: _ => isDigit a = false | [] => True end -> span isDigit (l ++ r) = (l, r).
Proof.
  intros D H. induction D as [|a l Ha D IH]; cbn.
  - destruct r as [|a r]; [reflexivity|]. cbn. now rewrite H.
  - rewrite Ha. now rewrite IH.
Qed.
Lemma takeSign_digit a t : isDigit a = true -> takeSign (a :: t) = (false, a :: t).
Proof. intro H. apply isDigit_not in H. destruct H as (_ & H1 & H2 & _). unfold takeSign. now rewrite H1, H2. Qed.

(* ------------------------------------------------------------------ *)
(** * Words *)

(** A word: not empty, no white space. *)
Definition word (s : string) : Prop := s <> EmptyString /\ Forall (fun a => isSpace a = false) (chars s).

Lemma chars_repeat_pad w s : chars (padLeft w s) = repeat " "%char (w - String.length s) ++ chars s.
Proof. unfold padLeft. now rewrite chars_app, chars_text. Qed.

Lemma splitFrom_word cur l : Forall (fun a => isSpace a = false) l ->
  forall r, splitFrom cur (l ++ r) = splitFrom (rev l ++ cur) r.
Proof.
  intro H. revert cur. induction H as [|a l Ha H IH]; intros cur r; [reflexivity|].
  cbn. rewrite Ha, IH. now rewrite <- app_assoc.
Qed.
Lemma splitFrom_spaces l r : Forall (fun a => isSpace a = true) l -> splitFrom [] (l ++ r) = splitFrom [] r.
Proof. induction 1 as [|a l Ha H IH]; [reflexivity|]. cbn. now rewrite Ha, IH. Qed.
Lemma flush_word s : s <> EmptyString -> flush (rev (chars s)) = [s].
Proof.
  intro H. unfold flush. destruct (rev (chars s)) as [|a t] eqn:E.
  - apply (f_equal (@rev ascii)) in E. rewrite rev_involutive in E. cbn in E. destruct s; [now contradiction H|discriminate].
  - rewrite <- E, rev_involutive. now rewrite text_chars.
Qed.

(** What [split] yields on the pieces of a text: blanks and words, where a word
    is followed by a blank or the end. *)
Definition startsBlank (l : list ascii) : Prop := match l with [] => True | a :: _ => isSpace a = true end.
Lemma splitFrom_take s r : word s -> startsBlank r -> splitFrom [] (chars s ++ r) = s :: splitFrom [] r.
Proof.
  intros [Ne W] B. rewrite splitFrom_word by assumption. rewrite app_nil_r.
  destruct r as [|a r]; cbn.
  - now rewrite flush_word.
  - cbn in B. rewrite B. rewrite flush_word by assumption. reflexivity.
Qed.
Lemma splitFrom_pad w s r : word s -> startsBlank r -> splitFrom [] (chars (padLeft w s) ++ r) = s :: splitFrom [] r.
Proof.
  intros W B. rewrite chars_repeat_pad, <- app_assoc. rewrite splitFrom_spaces.
  - now apply splitFrom_take.
  - apply Forall_forall. intros x H. apply repeat_spec in H. now subst.
Qed.
Lemma splitFrom_blank a r : isSpace a = true -> splitFrom [] (a :: r) = splitFrom [] r.
Proof. intro H. cbn. now rewrite H. Qed.

Lemma join_cons sep w ws : join sep (w :: ws) = match ws with [] => w | _ => (w ++ sep ++ join sep ws)%string end.
Proof. now destruct ws. Qed.

(** A line of padded words. *)
Lemma splitFrom_row w ws r : Forall word ws -> startsBlank r ->
  splitFrom [] (chars (join " " (map (padLeft w) ws)) ++ r) = ws ++ splitFrom [] r.
Proof.
  intros H B. induction H as [|s ws Hs H IH]; [reflexivity|].
  cbn [map]. rewrite join_cons. destruct ws as [|s' ws].
  - cbn [map]. rewrite splitFrom_pad by assumption. reflexivity.
  - cbn [map]. rewrite !chars_app, <- !app_assoc. rewrite splitFrom_pad by (assumption || reflexivity).
    cbn [app]. f_equal. change (chars " ") with [" "%char]. cbn [app]. rewrite splitFrom_blank by reflexivity.
    cbn [map] in IH. apply IH.
Qed.
Lemma map_pad0 ws : map (padLeft 0) ws = ws.
Proof. induction ws as [|w ws IH]; [reflexivity|]. cbn. rewrite IH. reflexivity. Qed.
Lemma split_join ws : Forall word ws -> split (join " " ws) = ws.
Proof.
  intro H. unfold split. rewrite <- (map_pad0 ws) at 1. rewrite <- (app_nil_r (chars _)).
  rewrite splitFrom_row by (assumption || exact Logic.I). apply app_nil_r.
Qed.

Lemma strip_word s : word s -> strip s = s.
Proof.
  intros [_ W]. now apply strip_none.
Qed.

(* ------------------------------------------------------------------ *)
(** * Integers *)

Lemma text_nonempty l : l <> [] -> text l <> EmptyString.
Proof. intros H E. apply (f_equal chars) in E. rewrite chars_text in E. now apply H. Qed.
Lemma digits_nospace l : digits l -> Forall (fun a => isSpace a = false) l.
Proof. intro H. eapply Forall_impl; [|exact H]. intros a Ha. now apply isDigit_not in Ha. Qed.
Lemma word_digits l : digits l -> l <> [] -> word (text l).
Proof. intros D Ne. split; [now apply text_nonempty|]. rewrite chars_text. now apply digits_nospace. Qed.
Lemma natText_word n : word (natText n).
Proof. apply word_digits; [apply decimal_digits|apply decimal_nonempty]. Qed.
Lemma zText_word z : word (zText z).
Proof.
  unfold zText. destruct (z <? 0)%Z.
  - split; [discriminate|]. cbn [chars list_ascii_of_string]. constructor; [reflexivity|].
    fold (chars (text (decimal (Z.abs_N z)))). rewrite chars_text. apply digits_nospace, decimal_digits.
  - apply word_digits; [apply decimal_digits|apply decimal_nonempty].
Qed.
Lemma parseInt_digits l : digits l -> l <> [] -> parseInt (text l) = Ok (Z.of_N (readDigits l)).
Proof.
  intros D Ne. unfold parseInt. rewrite strip_word by now apply word_digits. rewrite chars_text.
  destruct l as [|a t]; [now contradiction Ne|]. inversion D as [|? ? Ha Ht]; subst.
  rewrite takeSign_digit by assumption. rewrite <- (app_nil_r (a :: t)).
  rewrite span_digits by (assumption || exact Logic.I). now rewrite app_nil_r.
Qed.
Lemma parseInt_natText n : parseInt (natText n) = Ok (Z.of_nat n).
Proof.
  unfold natText. rewrite parseInt_digits by (apply decimal_digits || apply decimal_nonempty).
  rewrite decimal_read. f_equal. lia.
Qed.
Lemma parseInt_zText z : parseInt (zText z) = Ok z.
Proof.
  destruct (Z.ltb_spec z 0) as [H|H].
  - pose proof (zText_word z) as W. unfold parseInt. rewrite strip_word by assumption. unfold zText.
    destruct (Z.ltb_spec z 0); [|lia]. cbn [chars list_ascii_of_string takeSign].
    change (Ascii.eqb "-" "-") with true. cbv iota beta.
    fold (chars (text (decimal (Z.abs_N z)))). rewrite chars_text.
    destruct (decimal_spec (Z.abs_N z)) as (D & Ne & R & _). rewrite <- (app_nil_r (decimal _)).
    rewrite span_digits by (assumption || exact Logic.I). rewrite R.
    destruct (decimal (Z.abs_N z)); [now contradiction Ne|]. f_equal. lia.
  - unfold zText. destruct (Z.ltb_spec z 0); [lia|].
    rewrite parseInt_digits by (apply decimal_digits || apply decimal_nonempty). rewrite decimal_read. f_equal. lia.
Qed.

(* ------------------------------------------------------------------ *)
(** * Hexadecimal *)

Lemma sixteen_cases (P : N -> Prop) :
  (forall d, In d (map N.of_nat (seq 0 16)) -> P d) -> forall d, (d < 16)%N -> P d.
Proof. intros H d Hd. apply H. apply in_map_iff. exists (N.to_nat d). split; [lia|]. apply in_seq. lia. Qed.
Lemma hexVal_Char d : (d < 16)%N -> hexVal (hexChar d) = Some d.
Proof. revert d. apply sixteen_cases. cbn. intros d H. repeat (destruct H as [<-|H]; [reflexivity|]). contradiction. Qed.
Lemma hexChar_nospace d : (d < 16)%N -> isSpace (hexChar d) = false.
Proof. revert d. apply sixteen_cases. cbn. intros d H. repeat (destruct H as [<-|H]; [reflexivity|]). contradiction. Qed.
Lemma hexDigits_length w n : List.length (hexDigits w n) = w.
Proof. revert n. induction w as [|w IH]; intro n; [reflexivity|]. cbn. rewrite app_length, IH. cbn. lia. Qed.
Lemma hexDigits_nospace w n : Forall (fun a => isSpace a = false) (hexDigits w n).
Proof.
  revert n. induction w as [|w IH]; intro n; [constructor|]. cbn. apply Forall_app. split; [apply IH|].
  repeat constructor. apply hexChar_nospace. apply N.mod_upper_bound. discriminate.
Qed.
Lemma readHex_hexDigits w n : (n < 16 ^ N.of_nat w)%N -> readHexDigits (hexDigits w n) = Some n.
Proof.
  revert n. induction w as [|w IH]; intros n H.
  - change (16 ^ N.of_nat 0)%N with 1%N in H. assert (n = 0)%N as -> by lia. reflexivity.
  - cbn [hexDigits]. unfold readHexDigits in *. rewrite fold_left_app, IH.
    + cbn [fold_left]. rewrite hexVal_Char by (apply N.mod_upper_bound; discriminate).
      pose proof (N.div_mod n 16 ltac:(discriminate)). f_equal. lia.
    + rewrite Nat2N.inj_succ, N.pow_succ_r' in H. apply N.div_lt_upper_bound; [discriminate|lia].
Qed.
Lemma text_length l : String.length (text l) = List.length l.
Proof. induction l as [|a l IH]; [reflexivity|]. cbn. now rewrite <- IH. Qed.
Definition hexText (w : nat) (n : N) : string := text (hexDigits w n).
Lemma hexText_word w n : w <> 0%nat -> word (hexText w n).
Proof.
  intro H. split.
  - apply text_nonempty. intro E. apply (f_equal (@List.length ascii)) in E. rewrite hexDigits_length in E. cbn in E. lia.
  - unfold hexText. rewrite chars_text. apply hexDigits_nospace.
Qed.
Lemma parseHex_hexText w n : Nat.odd w = false -> (n < 16 ^ N.of_nat w)%N -> parseHex w (hexText w n) = Ok n.
Proof.
  intros O H. unfold parseHex, hexText. rewrite chars_text, readHex_hexDigits by assumption.
  rewrite text_length, hexDigits_length, O, Nat.eqb_refl. reflexivity.
Qed.

(* ------------------------------------------------------------------ *)
(** * Decimal numbers *)

(** Two literals denoting the same number. *)
Definition sameNumeral (n n' : numeral) : Prop :=
  match n, n' with
  | NumDec s m k, NumDec s' m' k' =>
      s = s' /\ exists c, (0 <= k + c)%Z /\ (0 <= k' + c)%Z /\ (Z.of_N m * 10 ^ (k + c) = Z.of_N m' * 10 ^ (k' + c))%Z
  | NumInf s, NumInf s' => s = s'
  | NumNan, NumNan => True
  | _, _ => False
  end.

Lemma takeSign_text neg l a t : l = a :: t -> isDigit a = true -> takeSign (chars (signText neg) ++ l) = (neg, l).
Proof. intros -> H. destruct neg; [reflexivity|]. cbn [signText chars list_ascii_of_string app]. now apply takeSign_digit. Qed.

Lemma not_named l a t : l = a :: t -> isDigit a = true ->
  String.eqb (lower (text l)) "inf" = false /\ String.eqb (lower (text l)) "infinity" = false /\ String.eqb (lower (text l)) "nan" = false.
Proof.
  intros -> H. unfold lower. rewrite chars_text. cbn [map text string_of_list_ascii].
  apply isDigit_not in H as K. destruct K as (_ & _ & _ & _ & _ & ->).
  destruct a as [[] [] [] [] [] [] [] []]; vm_compute in H; try discriminate H; repeat split; reflexivity.
Qed.

(** The decimal literals written by ["%.kf"] and [str]: sign, digits, point,
    digits, perhaps an exponent. *)
Definition expPart (e : option (bool * list ascii)) : list ascii :=
  match e with
  | None => []
  | Some (neg, ds) => "e"%char :: (if neg then "-"%char else "+"%char) :: ds
  end.
Definition expValue (e : option (bool * list ascii)) : Z :=
  match e with
  | None => 0
  | Some (neg, ds) => let v := Z.of_N (readDigits ds) in (if neg then - v else v)%Z
  end.
Definition expOk (e : option (bool * list ascii)) : Prop :=
  match e with None => True | Some (_, ds) => digits ds /\ ds <> [] end.

Lemma takeSign_exp neg ds : takeSign ((if neg : bool then "-"%char else "+"%char) :: ds) = (neg, ds).
Proof. now destruct neg. Qed.

Definition literal (neg : bool) (ip : list ascii) (point : bool) (fp : list ascii) (e : option (bool * list ascii)) : list ascii :=
  chars (signText neg) ++ ip ++ (if point then "."%char :: fp else []) ++ expPart e.

Lemma literal_word neg ip point fp e : digits ip -> ip <> [] -> digits fp -> expOk e -> word (text (literal neg ip point fp e)).
Proof.
  intros Di Ne Df De. split.
  - apply text_nonempty. unfold literal. destruct neg, ip; try discriminate; now contradiction Ne.
  - rewrite chars_text. unfold literal. apply Forall_app. split; [destruct neg; repeat constructor|].
    apply Forall_app. split; [now apply digits_nospace|]. apply Forall_app. split.
    + destruct point; [|constructor]. constructor; [reflexivity|now apply digits_nospace].
    + destruct e as [[en ed]|]; [|constructor]. destruct De as [De _]. cbn [expPart]. constructor; [reflexivity|].
      constructor; [now destruct en|now apply digits_nospace].
Qed.

Lemma parse_literal neg ip point fp e : digits ip -> ip <> [] -> digits fp -> expOk e ->
  parseNumeral (text (literal neg ip point fp e)) =
  Some (NumDec neg (readDigits (ip ++ if point then fp else []))
               (expValue e - Z.of_nat (List.length (if point then fp else [])))).
Proof.
  intros Di Ne Df De. unfold parseNumeral.
  rewrite strip_word by now apply literal_word. rewrite chars_text.
  destruct ip as [|a t] eqn:Eip; [now contradiction Ne|]. rewrite <- Eip in *.
  assert (Ha : isDigit a = true) by (rewrite Eip in Di; now inversion Di).
  unfold literal. rewrite (takeSign_text neg _ a (t ++ (if point then "."%char :: fp else []) ++ expPart e)) by (subst; reflexivity || assumption).
  destruct (not_named (ip ++ (if point then "."%char :: fp else []) ++ expPart e) a (t ++ (if point then "."%char :: fp else []) ++ expPart e)) as (-> & -> & ->);
    [now subst|assumption|]. cbn [orb].
  assert (X1 : match (if point then "."%char :: fp else []) ++ expPart e with x :: _ => isDigit x = false | [] => True end).
  { destruct point; [reflexivity|]. destruct e as [[en ed]|]; [reflexivity|exact Logic.I]. }
  rewrite span_digits by assumption.
  assert (X2 : match expPart e with x :: _ => isDigit x = false | [] => True end) by (now destruct e as [[en ed]|]).
  assert (E2 : match (if point then "."%char :: fp else []) ++ expPart e with
               | a0 :: t0 => if Ascii.eqb a0 "." then span isDigit t0 else ([], (if point then "."%char :: fp else []) ++ expPart e)
               | [] => ([], [])
               end = (if point then fp else [], expPart e)).
  { destruct point; cbn [app].
    - change (Ascii.eqb "." ".") with true. cbv iota. now rewrite span_digits.
    - destruct e as [[en ed]|]; reflexivity. }
  rewrite E2. destruct (ip ++ (if point then fp else [])) as [|x xs] eqn:Ex; [subst; discriminate|].
  destruct e as [[en ed]|]; cbn [expPart expValue]; [|reflexivity].
  change (Ascii.eqb (lowerChar "e") "e") with true. cbv iota. rewrite takeSign_exp.
  destruct De as [De Ned]. rewrite <- (app_nil_r ed) at 1. rewrite span_digits by (assumption || exact Logic.I).
  destruct ed; [now contradiction Ned|reflexivity].
Qed.

Lemma string_eq s t : chars s = chars t -> s = t.
Proof. intro H. apply (f_equal text) in H. now rewrite !text_chars in H. Qed.
Lemma text_app l l' : text (l ++ l') = (text l ++ text l')%string.
Proof. apply string_eq. now rewrite chars_app, !chars_text. Qed.

Lemma digits_firstn n l : digits l -> digits (firstn n l).
Proof. intro H. rewrite <- (firstn_skipn n l) in H. now apply Forall_app in H. Qed.
Lemma digits_skipn n l : digits l -> digits (skipn n l).
Proof. intro H. rewrite <- (firstn_skipn n l) in H. now apply Forall_app in H. Qed.

(** ["%.kf"] as a literal. *)
Lemma fixText_literal neg m k : exists ip fp,
  fixText (NumDec neg m (- Z.of_nat k)) = text (literal neg ip (negb (Nat.eqb k 0)) fp None) /\
  digits ip /\ ip <> [] /\ digits fp /\ List.length fp = k /\ readDigits (ip ++ fp) = m.
Proof.
  unfold fixText. rewrite Z.opp_involutive, Nat2Z.id.
  set (ds := zeros (S k - List.length (decimal m)) ++ decimal m). cbv zeta.
  assert (L : (S k <= List.length ds)%nat) by (unfold ds; rewrite app_length, zeros_length; lia).
  assert (D : digits ds) by (apply digits_app; [apply digits_zeros|apply decimal_digits]).
  exists (firstn (List.length ds - k) ds), (skipn (List.length ds - k) ds).
  split.
  { apply string_eq. rewrite !chars_app, !chars_text. unfold literal. cbn [expPart]. rewrite app_nil_r.
    f_equal. f_equal. destruct k as [|k]; [reflexivity|]. cbn [negb Nat.eqb]. rewrite chars_app, chars_text. reflexivity. }
  split; [now apply digits_firstn|]. split.
  { intro E. apply (f_equal (@List.length ascii)) in E. rewrite firstn_length in E. cbn [List.length] in E. lia. }
  split; [now apply digits_skipn|]. split; [rewrite skipn_length; lia|].
  rewrite firstn_skipn. unfold ds. now rewrite readDigits_lead, decimal_read.
Qed.
Lemma parse_fixText neg m k : parseNumeral (fixText (NumDec neg m (- Z.of_nat k))) = Some (NumDec neg m (- Z.of_nat k)).
Proof.
  destruct (fixText_literal neg m k) as (ip & fp & -> & Di & Ni & Df & L & R).
  rewrite parse_literal by (assumption || exact Logic.I).
  destruct (Nat.eqb_spec k 0) as [->|K]; cbn [negb expValue].
  - apply length_zero_iff_nil in L. subst fp. rewrite R. reflexivity.
  - rewrite R, L. reflexivity.
Qed.

(** [tfixed k x] is a multiple of 10^-k, an infinity or NaN. *)
Definition fixedForm (k : nat) (n : numeral) : Prop :=
  match n with NumDec _ _ e => e = (- Z.of_nat k)%Z | _ => True end.

Lemma parse_fixed k n : fixedForm k n -> parseNumeral (fixText n) = Some n.
Proof. destruct n as [neg m e|neg|]; intro H; [cbn in H; subst e; apply parse_fixText|now destruct neg|reflexivity]. Qed.
Lemma word_fixed k n : fixedForm k n -> word (fixText n).
Proof.
  destruct n as [neg m e|neg|]; intro H.
  - cbn in H. subst e. destruct (fixText_literal neg m k) as (ip & fp & -> & Di & Ni & Df & L & R).
    apply literal_word; (assumption || exact Logic.I).
  - destruct neg; (split; [discriminate|repeat constructor]).
  - split; [discriminate|repeat constructor].
Qed.

Lemma dropWhile_zeros l : exists j, l = zeros j ++ dropWhile (Ascii.eqb "0") l /\
  match dropWhile (Ascii.eqb "0") l with a :: _ => Ascii.eqb "0" a = false | [] => True end.
Proof.
  induction l as [|a l [j [E H]]]; [now exists 0%nat|]. cbn [dropWhile]. destruct (Ascii.eqb_spec "0" a) as [<-|A].
  - exists (S j). split; [|exact H]. cbn. f_equal. exact E.
  - exists 0%nat. split; [reflexivity|]. now apply Ascii.eqb_neq.
Qed.
Lemma rev_zeros j : rev (zeros j) = zeros j.
Proof.
  induction j as [|j IH]; [reflexivity|]. cbn [zeros repeat rev]. fold (zeros j). rewrite IH.
  unfold zeros. change ["0"%char] with (repeat "0"%char 1). rewrite <- repeat_app. now rewrite Nat.add_comm.
Qed.
Lemma dropZeros_spec l : exists j, l = dropZeros l ++ zeros j.
Proof.
  destruct (dropWhile_zeros (rev l)) as [j [E _]]. exists j. unfold dropZeros.
  rewrite <- (rev_zeros j), <- rev_app_distr, <- E. now rewrite rev_involutive.
Qed.
Lemma readDigits_nil : readDigits [] = 0%N. Proof. reflexivity. Qed.

Lemma same_scaled neg D j a k m m' k' :
  m = (D * 10 ^ N.of_nat j)%N -> m' = (D * 10 ^ N.of_nat a)%N -> (k' + Z.of_nat a = k + Z.of_nat j)%Z ->
  sameNumeral (NumDec neg m' k') (NumDec neg m k).
Proof.
  intros -> -> E. split; [reflexivity|]. exists (Z.abs k + Z.abs k')%Z. split; [lia|]. split; [lia|].
  rewrite !N2Z.inj_mul, !N2Z.inj_pow, !nat_N_Z. change (Z.of_N 10) with 10%Z.
  rewrite <- !Z.mul_assoc, <- !Z.pow_add_r by lia. f_equal. f_equal. lia.
Qed.

Lemma expText_literal e : exists ed, chars (expText e) = expPart (Some ((e <? 0)%Z, ed)) /\ digits ed /\ ed <> [] /\
  expValue (Some ((e <? 0)%Z, ed)) = e.
Proof.
  exists (zeros (2 - List.length (decimal (Z.abs_N e))) ++ decimal (Z.abs_N e)).
  split; [|split; [|split]].
  - unfold expText. rewrite chars_app, chars_text. now destruct (e <? 0)%Z.
  - apply digits_app; [apply digits_zeros|apply decimal_digits].
  - intro E. apply app_eq_nil in E. now apply (decimal_nonempty (Z.abs_N e)).
  - cbn [expValue]. rewrite readDigits_lead, decimal_read. destruct (Z.ltb_spec e 0); lia.
Qed.

(** [str] as a literal with the same value. *)
Lemma sigText_literal neg m k : exists ip point fp e,
  sigText (NumDec neg m k) = text (literal neg ip point fp e) /\ digits ip /\ ip <> [] /\ digits fp /\ expOk e /\
  sameNumeral (NumDec neg (readDigits (ip ++ if point then fp else []))
                      (expValue e - Z.of_nat (List.length (if point : bool then fp else [])))) (NumDec neg m k).
Proof.
  unfold sigText. destruct (N.eqb_spec m 0) as [->|M].
  { exists ["0"%char], true, ["0"%char], None. split; [now destruct neg|]. split; [repeat constructor|]. split; [discriminate|].
    split; [repeat constructor|]. split; [exact Logic.I|]. split; [reflexivity|]. exists (1 + Z.abs k)%Z. cbn [expValue List.length].
    split; [lia|]. split; [lia|]. change (readDigits _) with 0%N. now rewrite !Z.mul_0_l. }
  set (all := decimal m). set (e := (k + Z.of_nat (List.length all) - 1)%Z). set (ds := dropZeros all). cbv zeta.
  destruct (dropZeros_spec all) as [j Ej]. fold ds in Ej.
  assert (Dall : digits all) by apply decimal_digits.
  assert (Dds : digits ds) by (rewrite Ej in Dall; now apply Forall_app in Dall).
  assert (Em : m = (readDigits ds * 10 ^ N.of_nat j)%N) by (rewrite <- readDigits_trail, <- Ej; symmetry; apply decimal_read).
  assert (Nds : ds <> []).
  { intro E. rewrite E, readDigits_nil in Em. cbn [N.mul] in Em. now apply M. }
  assert (Le : e = (k + Z.of_nat j + Z.of_nat (List.length ds) - 1)%Z).
  { unfold e. rewrite Ej, app_length, zeros_length. lia. }
  clearbody e. clear Ej Dall. clearbody ds. clear all.
  destruct ((e <? -4)%Z || (12 <=? e)%Z) eqn:C.
  - destruct (expText_literal e) as (ed & Ee & De & Ne & Ve).
    destruct ds as [|a t] eqn:Ed; [now contradiction Nds|]. cbn [firstn skipn].
    exists [a], (match t with [] => false | _ => true end), t, (Some ((e <? 0)%Z, ed)).
    split. { apply string_eq. rewrite !chars_app, !chars_text, Ee. unfold literal. f_equal. f_equal. f_equal.
             destruct t; [reflexivity|]. now rewrite chars_app, chars_text. }
    pose proof (Forall_inv Dds) as Ha. pose proof (Forall_inv_tail Dds) as Ht. split; [repeat constructor; assumption|]. split; [discriminate|]. split; [assumption|].
    split; [now split|]. rewrite Ve. cbn [List.length] in Le.
    apply (same_scaled neg (readDigits (a :: t)) j 0).
    + exact Em.
    + change (10 ^ N.of_nat 0)%N with 1%N. rewrite N.mul_1_r. now destruct t.
    + destruct t; cbn [List.length] in *; lia.
  - apply orb_false_elim in C. destruct C as [C1 C2]. apply Z.ltb_ge in C1. apply Z.leb_gt in C2.
    destruct (Z.ltb_spec e 0) as [E|E].
    + exists ["0"%char], true, (zeros (Z.to_nat (- e) - 1) ++ ds), None.
      split. { apply string_eq. rewrite !chars_app, !chars_text. unfold literal. cbn [expPart]. now rewrite app_nil_r. }
      split; [repeat constructor|]. split; [discriminate|]. split; [apply digits_app; [apply digits_zeros|assumption]|].
      split; [exact Logic.I|]. apply (same_scaled neg (readDigits ds) j 0).
      * exact Em.
      * change (10 ^ N.of_nat 0)%N with 1%N. rewrite N.mul_1_r. change ["0"%char] with (zeros 1).
        now rewrite !readDigits_lead.
      * cbn [expValue]. rewrite app_length, zeros_length. lia.
    + set (i := S (Z.to_nat e)).
      exists (firstn i ds ++ zeros (i - List.length ds)), true, (match skipn i ds with [] => ["0"%char] | t => t end), None.
      split. { apply string_eq. rewrite !chars_app, !chars_text. unfold literal. cbn [expPart]. rewrite app_nil_r.
               f_equal. f_equal. cbn [chars list_ascii_of_string app]. f_equal. destruct (skipn i ds); [reflexivity|].
               fold (chars (text (a :: l))). now rewrite chars_text. }
      split; [apply digits_app; [now apply digits_firstn|apply digits_zeros]|].
      split. { destruct ds; [now contradiction Nds|discriminate]. }
      split. { pose proof (digits_skipn i ds Dds). destruct (skipn i ds); [repeat constructor|assumption]. }
      split; [exact Logic.I|]. cbn [expValue].
      destruct (Nat.le_gt_cases (List.length ds) i) as [L|L].
      * rewrite skipn_all2, firstn_all2 by assumption.
        apply (same_scaled neg (readDigits ds) j (i - List.length ds + 1)).
        -- exact Em.
        -- change ["0"%char] with (zeros 1). rewrite <- app_assoc. unfold zeros. rewrite <- repeat_app.
           apply readDigits_trail.
        -- cbn [List.length]. unfold i in *. lia.
      * replace (i - List.length ds)%nat with 0%nat by lia. cbn [zeros repeat]. rewrite app_nil_r.
        destruct (skipn i ds) as [|x xs] eqn:Ex.
        { apply (f_equal (@List.length ascii)) in Ex. rewrite skipn_length in Ex. cbn in Ex. lia. }
        rewrite <- Ex. apply (same_scaled neg (readDigits ds) j 0).
        -- exact Em.
        -- change (10 ^ N.of_nat 0)%N with 1%N. rewrite N.mul_1_r. now rewrite firstn_skipn.
        -- rewrite skipn_length. unfold i in *. lia.
Qed.

Lemma parse_sig n : exists n', parseNumeral (sigText n) = Some n' /\ sameNumeral n' n.
Proof.
  destruct n as [neg m k|neg|].
  - destruct (sigText_literal neg m k) as (ip & point & fp & e & -> & Di & Ni & Df & De & S).
    rewrite parse_literal by assumption. eexists. split; [reflexivity|exact S].
  - exists (NumInf neg). split; [now destruct neg|reflexivity].
  - exists NumNan. split; [reflexivity|exact Logic.I].
Qed.
Lemma word_sig n : word (sigText n).
Proof.
  destruct n as [neg m k|neg|].
  - destruct (sigText_literal neg m k) as (ip & point & fp & e & -> & Di & Ni & Df & De & S). now apply literal_word.
  - destruct neg; (split; [discriminate|repeat constructor]).
  - split; [discriminate|repeat constructor].
Qed.

(* ------------------------------------------------------------------ *)
(** * Laws of an arithmetic with text *)

Class TextOk (T : Type) {N : Num T} {X : NumText T} : Prop := {
  to_round  : forall n n', sameNumeral n n' -> tround n = (tround n' : T);
  to_fixed  : forall k (x : T), fixedForm k (tfixed k x);
  to_half   : forall x : T, nhalf (nhbits x) = nf16 x;
  to_hbits  : forall x : T, (0 <= nhbits x < 65536)%Z;
  to_32     : forall x : T, tof32 (tbits32 x) = nf32 x;
  to_bits32 : forall x : T, (tbits32 x < 2 ^ 32)%N;
  to_64     : forall x : T, tof64 (tbits64 x) = x;
  to_bits64 : forall x : T, (tbits64 x < 2 ^ 64)%N;
  to_f16    : forall x : T, nf16 (nf16 x) = nf16 x;
  to_f32    : forall x : T, nf32 (nf32 x) = nf32 x
}.

Section Laws.
  Context {T : Type} {N : Num T} {X : NumText T} {OK : TextOk T}.

  Lemma parse_formatFixed k (x : T) : parseFloat (formatFixed k x) = Ok (tround (tfixed k x)).
  Proof. unfold parseFloat, formatFixed. rewrite (parse_fixed k) by apply to_fixed. reflexivity. Qed.
  Lemma word_formatFixed k (x : T) : word (formatFixed k x).
  Proof. apply (word_fixed k), to_fixed. Qed.
  Lemma parse_formatStr (x : T) : parseFloat (formatStr x) = Ok (tround (tsig12 x)).
  Proof.
    unfold parseFloat, formatStr. destruct (parse_sig (tsig12 x)) as (n' & -> & S). now rewrite (to_round _ _ S).
  Qed.
  Lemma word_formatStr (x : T) : word (formatStr x).
  Proof. apply word_sig. Qed.
End Laws.
