(** IEEE doubles as text: decimal conversions correctly rounded in both directions
    (what CPython 2.7's float() and % do) and the 32- and 64-bit encodings. *)
From Flocq Require Import Core BinarySingleNaN.
From Verif Require Export NumF MNumText.
Local Open Scope list_scope.

(** The float nearest to (-1)^s n/d. *)
Definition roundRatSF p e (s : bool) (n d : positive) : SpecFloat.spec_float :=
  let '(mz, ez, lz) := SpecFloat.SFdiv_core_binary p e (Zpos n) 0 (Zpos d) 0 in
  binary_round_aux p e mode_NE s mz ez lz.
Lemma roundRatSF_valid p e (Hp : Prec_gt_0 p) (He : Prec_lt_emax p e) s n d :
  SpecFloat.valid_binary p e (roundRatSF p e s n d) = true.
Proof. pose proof (proj1 (Bdiv_correct_aux p e Hp He mode_NE s n 0 false d 0)) as V. now rewrite xorb_false_r in V. Qed.
Definition roundRat (s : bool) (n d : positive) : fl := SF2B _ (roundRatSF_valid 53 1024 _ _ s n d).

Definition flRound (n : numeral) : fl :=
  match n with
  | NumDec neg m k =>
      match m with
      | N0 => B754_zero neg
      | Npos m => if (0 <=? k)%Z then roundRat neg (Z.to_pos (Zpos m * 10 ^ k)) 1
                  else roundRat neg m (Z.to_pos (10 ^ (- k)))
      end
  | NumInf neg => B754_infinity neg
  | NumNan => B754_nan
  end.

(** n/d rounded to the nearest integer, ties to even. *)
Definition rneDiv (n d : Z) : Z :=
  let q := (n / d)%Z in
  let r := (n mod d)%Z in
  if (2 * r <? d)%Z then q else if (d <? 2 * r)%Z then (q + 1)%Z else if Z.even q then q else (q + 1)%Z.

(** m 2^e as a fraction. *)
Definition fracNum (m : positive) (e : Z) : Z := (Zpos m * 2 ^ (Z.max 0 e))%Z.
Definition fracDen (e : Z) : Z := (2 ^ (Z.max 0 (- e)))%Z.

Definition flFixed (k : nat) (x : fl) : numeral :=
  match x with
  | B754_zero s => NumDec s 0 (- Z.of_nat k)
  | B754_infinity s => NumInf s
  | B754_nan => NumNan
  | B754_finite s m e _ =>
      NumDec s (Z.to_N (rneDiv (fracNum m e * 10 ^ Z.of_nat k) (fracDen e))) (- Z.of_nat k)
  end.

Definition decLength (n : Z) : Z := Z.of_nat (List.length (decimal (Z.to_N n))).
(** The exponent of the first significant digit of n/d: 10^e <= n/d < 10^(e+1). *)
Definition decExp (n d : Z) : Z :=
  if (d <=? n)%Z then (decLength (n / d) - 1)%Z
  else (- decLength ((d - 1) / n))%Z.

(** n/d rounded to a multiple of 10^k, as a number of that unit. *)
Definition toUnit (n d k : Z) : Z := rneDiv (n * 10 ^ (Z.max 0 (- k))) (d * 10 ^ (Z.max 0 k)).

Definition flSig (digits : Z) (x : fl) : numeral :=
  match x with
  | B754_zero s => NumDec s 0 0
  | B754_infinity s => NumInf s
  | B754_nan => NumNan
  | B754_finite s m e _ =>
      let n := fracNum m e in
      let d := fracDen e in
      let k := (decExp n d - (digits - 1))%Z in
      let v := toUnit n d k in
      if (v =? 10 ^ digits)%Z then NumDec s (Z.to_N (10 ^ (digits - 1))) (k + 1)
      else NumDec s (Z.to_N v) k
  end.

(** Bit patterns of an interchange format with [mw] = p-1 fraction bits and [w] bits
    below the sign. *)
Definition bitsOf {p em} (mw w : Z) (x : binary_float p em) : Z :=
  match x with
  | B754_zero s => if s then 2 ^ w else 0
  | B754_infinity s => (if s then 2 ^ w else 0) + (2 ^ (w - mw) - 1) * 2 ^ mw
  | B754_nan => (2 ^ (w - mw) - 1) * 2 ^ mw + 2 ^ (mw - 1)
  | B754_finite s m e _ => (if s then 2 ^ w else 0) + ((e - (3 - em - p)) * 2 ^ mw + Zpos m)
  end%Z.
Definition ofBits p em `{Prec_gt_0 p} `{Prec_lt_emax p em} (mw w : Z) (k : Z) : binary_float p em :=
  let s := negb (Z.eqb (k / 2 ^ w) 0) in
  let r := (k mod 2 ^ w)%Z in
  let e := (r / 2 ^ mw)%Z in
  let f := (r mod 2 ^ mw)%Z in
  if Z.eqb e (2 ^ (w - mw) - 1) then (if Z.eqb f 0 then B754_infinity s else B754_nan)
  else if Z.eqb e 0 then binary_normalize p em _ _ mode_NE (cond_Zopp s f) (3 - em - p) s
  else binary_normalize p em _ _ mode_NE (cond_Zopp s (2 ^ mw + f)) (3 - em - p + e - 1) s.

#[export] Instance ieeeText : NumText fl := {
  tround := flRound;
  tfixed := flFixed;
  tsig12 := flSig 12;
  tbits32 := fun x => Z.to_N (bitsOf 23 31 (f32of x));
  tof32 := fun n => f64 (ofBits 24 128 23 31 (Z.of_N n));
  tover32 := fun x => is_finite x && negb (is_finite (f32of x));
  tbits64 := fun x => Z.to_N (bitsOf 52 63 x);
  tof64 := fun n => ofBits 53 1024 52 63 (Z.of_N n)
}.
