(** IEEE arithmetic: the model's numbers are IEEE doubles with infinities, NaN and
    signed zeros, and storing into a float32 (float16) array rounds to nearest even. *)
From Flocq Require Import Core BinarySingleNaN.
From Verif Require Export MCommon.

Notation fl := (binary_float 53 1024).

#[export] Instance prec53 : Prec_gt_0 53 := eq_refl.
#[export] Instance emax53 : Prec_lt_emax 53 1024 := eq_refl.
#[export] Instance prec24 : Prec_gt_0 24 := eq_refl.
#[export] Instance emax24 : Prec_lt_emax 24 128 := eq_refl.
#[export] Instance prec11 : Prec_gt_0 11 := eq_refl.
#[export] Instance emax11 : Prec_lt_emax 11 16 := eq_refl.

(** Round a binary_float of one format to another. *)
Definition toFormat {p1 e1} p2 e2 `{Prec_gt_0 p2} `{Prec_lt_emax p2 e2} (x : binary_float p1 e1)
  : binary_float p2 e2 :=
  match x with
  | B754_zero s => B754_zero s
  | B754_infinity s => B754_infinity s
  | B754_nan => B754_nan
  | B754_finite s m e _ => binary_normalize p2 e2 _ _ mode_NE (cond_Zopp s (Zpos m)) e s
  end.

Definition f64 {p e} (x : binary_float p e) : fl := toFormat 53 1024 x.
Definition f32of (x : fl) : binary_float 24 128 := toFormat 24 128 x.
Definition f16of (x : fl) : binary_float 11 16 := toFormat 11 16 x.

(** Floor of a finite number m 2^e. *)
Definition flFloor (x : fl) : Z :=
  match x with
  | B754_finite s m e _ =>
      let z := cond_Zopp s (Zpos m) in
      if (0 <=? e)%Z then (z * 2 ^ e)%Z else (z / 2 ^ (- e))%Z
  | _ => 0%Z
  end.

Definition halfBits (x : binary_float 11 16) : Z :=
  match x with
  | B754_zero s => if s then 32768 else 0
  | B754_infinity s => if s then 64512 else 31744
  | B754_nan => 32256
  | B754_finite s m e _ => ((if s then 32768 else 0) + ((e + 24) * 1024 + Zpos m))
  end%Z.

Definition halfValue (k : Z) : fl :=
  let s := negb (Z.eqb (k / 32768) 0) in
  let e := (k mod 32768 / 1024)%Z in
  let f := (k mod 1024)%Z in
  if Z.eqb e 31 then (if Z.eqb f 0 then B754_infinity s else B754_nan)
  else if Z.eqb e 0 then binary_normalize 53 1024 _ _ mode_NE (cond_Zopp s f) (-24) s
  else binary_normalize 53 1024 _ _ mode_NE (cond_Zopp s (1024 + f)) (e - 25) s.

(** The C library's pow and log10: any functions. *)
Record libm : Type := { m_pow : fl -> fl -> fl; m_log10 : fl -> fl }.

#[export] Instance ieeeNum (L : libm) : Num fl := {
  nofZ := fun z => binary_normalize 53 1024 _ _ mode_NE z 0 false;
  nadd := Bplus mode_NE; nsub := Bminus mode_NE; nmul := Bmult mode_NE; ndiv := Bdiv mode_NE;
  nltb := Bltb; nleb := Bleb; neqb := Beqb;
  nisnan := is_nan;
  nisinf := fun x => match x with B754_infinity _ => true | _ => false end;
  nfloor := flFloor;
  nceil := fun x => (- flFloor (Bopp x))%Z;
  npow := m_pow L; nlog10 := m_log10 L;
  nf32 := fun x => f64 (f32of x);
  nf16 := fun x => f64 (f16of x);
  nf16inf := fun x => match f16of x with B754_infinity _ => true | _ => false end;
  nhbits := fun x => halfBits (f16of x);
  nhalf := halfValue
}.
