(** Python-level vocabulary shared by the model files: exceptions as values,
    list indexing and slicing with Python's rules, and loops.
    Nothing here models code of /repo; it models the Python 2 constructs that
    the code of /repo is written in. *)
From Coq Require Export List Arith ZArith Bool Lia String Ascii.
Export ListNotations.

(** Exception classes the modelled code can raise. *)
Inductive exn : Type :=
| IndexError | KeyError | TypeError | NameError | AttributeError | ValueError
| ZeroDivisionError | OverflowError | UnboundLocalError | IOError | ParseError | RecursionError
| StructError | UnsupportedExtensionError | UnknownProcessNodeError.

Inductive res (A : Type) : Type :=
| Ok (a : A)
| Err (e : exn).
Arguments Ok {A} a.
Arguments Err {A} e.

Definition bind {A B} (m : res A) (k : A -> res B) : res B :=
  match m with Ok a => k a | Err e => Err e end.

Declare Scope res_scope.
Delimit Scope res_scope with res.
Notation "'let*' x ':=' m 'in' k" := (bind m (fun x => k))
  (at level 200, x pattern, m at level 100, k at level 200, right associativity) : res_scope.
Open Scope res_scope.

Definition is_ok {A} (m : res A) : Prop := exists a, m = Ok a.

(** [l[i]] for a possibly negative Python index. *)
Definition pyget {A} (l : list A) (i : Z) : res A :=
  let j := if (i <? 0)%Z then (i + Z.of_nat (List.length l))%Z else i in
  if (j <? 0)%Z then Err IndexError
  else match nth_error l (Z.to_nat j) with Some x => Ok x | None => Err IndexError end.

(** [l[i]] for a natural index. *)
Definition getn {A} (l : list A) (i : nat) : res A :=
  match nth_error l i with Some x => Ok x | None => Err IndexError end.

(** [l[i] = x] for a natural index. *)
Fixpoint setn {A} (l : list A) (i : nat) (x : A) : res (list A) :=
  match l, i with
  | [], _ => Err IndexError
  | _ :: t, O => Ok (x :: t)
  | h :: t, S j => let* t' := setn t j x in Ok (h :: t')
  end.

(** [l[a:b]] for [0 <= a <= b] (Python truncates at the end of the list). *)
Definition slice {A} (l : list A) (a b : nat) : list A := firstn (b - a) (skipn a l).

(** [l[a:a+len(vs)] = vs] inside the list (numpy assignment of a slice of the
    same length). *)
Definition slice_set {A} (l : list A) (a : nat) (vs : list A) : list A :=
  firstn a l ++ vs ++ skipn (a + List.length vs) l.

(** [for x in xs: s = body x s], stopping at the first exception. *)
Fixpoint for_each {A S} (xs : list A) (body : A -> S -> res S) (s : S) : res S :=
  match xs with
  | [] => Ok s
  | x :: t => let* s' := body x s in for_each t body s'
  end.

(** [map(f, xs)] with exceptions. *)
Fixpoint mapM {A B} (f : A -> res B) (xs : list A) : res (list B) :=
  match xs with
  | [] => Ok []
  | x :: t => let* y := f x in let* ys := mapM f t in Ok (y :: ys)
  end.

(** Python 2 integer division of non-negative integers. *)
Definition pydiv (a b : nat) : res nat :=
  match b with O => Err ZeroDivisionError | _ => Ok (Nat.div a b) end.

(** Dictionaries: association lists with unique keys; assignment keeps the
    position of an existing key and appends a new one. *)
Section Dict.
  Context {V : Type}.
  Fixpoint dget (d : list (string * V)) (k : string) : option V :=
    match d with
    | [] => None
    | (k', v) :: t => if String.eqb k k' then Some v else dget t k
    end.
  Fixpoint dset (d : list (string * V)) (k : string) (v : V) : list (string * V) :=
    match d with
    | [] => [(k, v)]
    | (k', v') :: t => if String.eqb k k' then (k, v) :: t else (k', v') :: dset t k v
    end.
  Fixpoint ddel (d : list (string * V)) (k : string) : list (string * V) :=
    match d with
    | [] => []
    | (k', v') :: t => if String.eqb k k' then t else (k', v') :: ddel t k
    end.
  (** [d[k]] raising KeyError. *)
  Definition dgetE (d : list (string * V)) (k : string) : res V :=
    match dget d k with Some v => Ok v | None => Err KeyError end.
End Dict.
