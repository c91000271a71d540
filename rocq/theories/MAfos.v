(* Model of the constructor of lists of attribute filter operations when it is given
   arguments (/repo/filter.go:360-390).  Definitions only. *)
From Coq Require Import String Ascii List PeanoNat Bool.
From Verif Require Import GoStr MLists MFilter.
Import ListNotations.

(* filter.go:387 _f.Push(x...) hands the arguments to the stack, which asks the policy
   (filter.go:621-647) for each: an operation may be admitted, every other type is
   refused, texts included.  [stop]: see push_many in MLists.v. *)
Definition afos_take (l : list afo) (x : asarg) : list afo :=
  match x with ASOp o => push1 afos_policy l o | ASStr _ | ASOther => l end.
Definition AFOs (stop : bool) (xs : list asarg) : afos := MkAFOs "," (push_many stop afos_take [] xs).
