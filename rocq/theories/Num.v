(** Arithmetic the modelled code computes with.

    [T] stands for a Python float or numpy scalar.  All modelled expressions mix a
    numpy float32 scalar with Python floats/ints, which numpy evaluates in
    double precision; results become float32 only when stored into a float32
    array, which the model writes as [nf32].  (An operation on two float32
    scalars is the double operation followed by [nf32].)

    The model is written against this record only, so every theorem that
    does not name an instance holds for any arithmetic. *)
From Verif Require Import Py.

Class Num (T : Type) : Type := {
  nofZ   : Z -> T;                 (* float(int) *)
  nadd   : T -> T -> T;
  nsub   : T -> T -> T;
  nmul   : T -> T -> T;
  ndiv   : T -> T -> T;            (* numpy division; Python's ZeroDivisionError is modelled where it can occur *)
  nltb   : T -> T -> bool;         (* <  *)
  nleb   : T -> T -> bool;         (* <= *)
  neqb   : T -> T -> bool;         (* == *)
  nisnan : T -> bool;              (* np.isnan *)
  nisinf : T -> bool;              (* np.isinf *)
  nfloor : T -> Z;                 (* int(math.floor(x)), x finite *)
  nceil  : T -> Z;                 (* int(math.ceil(x)), x finite *)
  npow   : T -> T -> T;            (* pow(x, y), x >= 0 *)
  nlog10 : T -> T;                 (* math.log10(x), x > 0 *)
  nf32   : T -> T;                 (* np.float32(x) *)
  nf16   : T -> T;                 (* np.float16(x) *)
  nf16inf: T -> bool;              (* np.isinf(np.float16(x)) *)
  nhbits : T -> Z;                 (* halfToUInt16 *)
  nhalf  : Z -> T                  (* uint16ToHalf *)
}.

Declare Scope num_scope.
Delimit Scope num_scope with num.
Infix "+" := nadd : num_scope.
Infix "-" := nsub : num_scope.
Infix "*" := nmul : num_scope.
Infix "/" := ndiv : num_scope.
Infix "<?" := nltb : num_scope.
Infix "<=?" := nleb : num_scope.
Infix "=?" := neqb : num_scope.

Section Derived.
  Context {T : Type} {N : Num T}.

  (** A decimal literal m/d with m, d < 2^53 (the quotient of two exactly
      representable integers is the correctly rounded literal). *)
  Definition nlit (m d : Z) : T := ndiv (nofZ m) (nofZ d).
  Definition n0 : T := nofZ 0.
  Definition n1 : T := nofZ 1.

  (** Python's [max(a, b)]: [b] if [b > a], else [a]. *)
  Definition pymax (a b : T) : T := if nltb a b then b else a.
  (** Python's [min(a, b)]: [b] if [b < a], else [a]. *)
  Definition pymin (a b : T) : T := if nltb b a then b else a.
End Derived.
