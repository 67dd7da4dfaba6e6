(** Model of the evaluation half of python/aces/clf/IndexMap.py. *)
From Verif Require Export MArray.

Section IndexMap.
  Context {T : Type} {N : Num T}.
  Local Open Scope num_scope.

  (** IndexMap.py 65-75: [self._values = [inputs, outputs]]. The cached
      evaluation (useCachedProcess, which no code of the package turns on) is in
      MIndexCache.v; nodes are modelled without it. [None] is the dimension [[]] of
      a map that was given none (line 65). *)
  Record imap : Type := { im_dim : option nat; im_in : list T; im_out : list T }.

  (** IndexMap.py 118-126: the search loop, [i] counting up from its argument;
      [fuel] is the number of iterations of [range(len(inputValues))] left. *)
  Fixpoint imapSearch (fuel i : nat) (ins outs : list T) (value : T) : res T :=
    match fuel with
    | O => Err UnboundLocalError
    | S fuel' =>
        let* inputHigh := getn ins (i + 1) in
        if value <=? inputHigh then
          let* inputLow := getn ins i in
          let interp := (value - inputLow) / (inputHigh - inputLow) in
          let* outputLow := getn outs i in
          let* outputHigh := getn outs (i + 1) in
          Ok (interp * (outputHigh - outputLow) + outputLow)
        else imapSearch fuel' (i + 1) ins outs value
    end.

  (** IndexMap.py 95-127: _processRaw, which is what IndexMap.process (177-187) runs. *)
  Definition imapProcess (m : imap) (value : T) : res T :=
    let ins := im_in m in
    let outs := im_out m in
    if nisnan value then Ok value
    else if nisinf value then Ok value
    else
      let* first := pyget ins 0 in
      if value <=? first then pyget outs 0
      else
        let* last := pyget ins (-1) in
        if last <=? value then pyget outs (-1)
        else imapSearch (List.length ins) 0 ins outs value.
End IndexMap.
Arguments imap T : clear implicits.
