(** Integer arithmetic, used only for the concrete examples beside theorems that
    hold for any arithmetic. *)
From Verif Require Export MCommon.

#[export] Instance intNum : Num Z := {
  nofZ := fun z => z;
  nadd := Z.add; nsub := Z.sub; nmul := Z.mul; ndiv := Z.div;
  nltb := Z.ltb; nleb := Z.leb; neqb := Z.eqb;
  nisnan := fun _ => false; nisinf := fun _ => false;
  nfloor := fun z => z; nceil := fun z => z;
  npow := Z.pow; nlog10 := Z.log2;
  nf32 := fun z => z; nf16 := fun z => z; nf16inf := fun _ => false;
  nhbits := fun z => z; nhalf := fun z => z
}.
