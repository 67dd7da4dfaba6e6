(** Exact arithmetic: the model's numbers are the real numbers and storing into a
    float32 array loses nothing. Theorems about this instance say what the code
    computes apart from rounding and special values. *)
From Coq Require Export Reals.
From Flocq Require Import Core.
From Verif Require Export MCommon.

(** x^y for an integer y, for any x. *)
Definition Rpowz (x : R) (y : Z) : R := powerRZ x y.

(** pow(x, y): exp(y ln x) for x > 0; 0^0 = 1 and 0^y = 0 (y > 0); for x < 0 the
    integer power (the model raises before this for other y). *)
Definition Rpow (x y : R) : R :=
  if Rlt_dec 0 x then Rpower x y
  else if Req_EM_T x 0 then (if Req_EM_T y 0 then 1%R else 0%R)
  else Rpowz x (Zfloor y).

Definition Rltb (x y : R) : bool := if Rlt_dec x y then true else false.
Definition Rleb (x y : R) : bool := if Rle_dec x y then true else false.
Definition Reqb (x y : R) : bool := if Req_EM_T x y then true else false.

(** Half-precision rounding (5 exponent bits, 11 bits of precision). *)
Definition Rhalf_exp : Z -> Z := FLT_exp (-24) 11.
Definition Rf16 (x : R) : R := round radix2 Rhalf_exp ZnearestE x.
(** Values from 65520 on round to infinity. *)
Definition Rf16inf (x : R) : bool := Rleb 65520 (Rabs x).

(** Bit pattern of a half value: sign bit, then exponent and fraction, which for a
    number m 2^e (canonical) read together are (e + 24) 1024 + m. *)
Definition Rhbits (x : R) : Z :=
  ((if Rltb x 0 then 32768 else 0) +
   let e := Z.max (mag radix2 x - 11) (-24) in
   if Reqb x 0 then 0 else (e + 24) * 1024 + Ztrunc (Rabs x * bpow radix2 (- e)))%Z.

(** The value of a 16-bit pattern (infinities and NaNs get some value here). *)
Definition Rhalfval (k : Z) : R :=
  let s := (k / 32768)%Z in
  let e := (k mod 32768 / 1024)%Z in
  let f := (k mod 1024)%Z in
  let v := if Z.eqb e 0 then (IZR f * bpow radix2 (-24))%R
           else (IZR (1024 + f) * bpow radix2 (e - 25))%R in
  if Z.eqb s 0 then v else (- v)%R.

#[export] Instance realNum : Num R := {
  nofZ := IZR;
  nadd := Rplus; nsub := Rminus; nmul := Rmult; ndiv := Rdiv;
  nltb := Rltb; nleb := Rleb; neqb := Reqb;
  nisnan := fun _ => false; nisinf := fun _ => false;
  nfloor := Zfloor; nceil := Zceil;
  npow := Rpow; nlog10 := fun x => (ln x / ln 10)%R;
  nf32 := fun x => x;
  nf16 := Rf16; nf16inf := Rf16inf; nhbits := Rhbits; nhalf := Rhalfval
}.
