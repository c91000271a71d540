(* Specification for C179, C180: goroutines that call Set and Parse on one variable. *)
From Coq Require Import String List PeanoNat Bool.
From Verif Require Import GoStr MAttr MFilter MFirst MSetParse.
Import ListNotations.

(* all calls have returned *)
Definition s_returned {V C} (st : sstate V C) : Prop := forall g, In g (sgos st) -> stodo g = [] /\ sat g = SOff.
(* the calls of goroutine k in the order h *)
Definition only {E} (k : nat) (h : list (nat * E)) : list E := map snd (filter (fun p => Nat.eqb (fst p) k) h).
(* h is an order of all elements of the lists, in which each list keeps its order *)
Definition orders {E} (ess : list (list E)) (h : list (nat * E)) : Prop :=
  (forall k e, In (k, e) h -> (k < List.length ess)%nat) /\ forall k es, nth_error ess k = Some es -> es = only k h.
(* the same for beginnings of the lists *)
Definition orders_some {E} (ess : list (list E)) (h : list (nat * E)) : Prop :=
  (forall k e, In (k, e) h -> (k < List.length ess)%nat) /\
  forall k es, nth_error ess k = Some es -> exists rest, es = (only k h ++ rest)%list.
(* the variable is set; no call of Set makes its value one that counts as zero, no text says
   such a value *)
Definition s_holds {V C} (T : ftype V C) (P : string -> option V) (v : V) (css : list (list (scall C))) : Prop :=
  fzero T v = false /\
  (forall cs c w, In cs css -> In (SSet c) cs -> fzero T w = false -> fzero T (fupd T w c) = false) /\
  (forall cs s w, In cs css -> In (SParse s) cs -> P s = Some w -> fzero T w = false).
(* an argument of Set of an attribute filter that is something *)
Definition fsolid (x : farg) : Prop :=
  match x with FStr s => s <> ""%string | FAT a => at_isZero a = false | FSF f => sf_isZero f = false | FOther => True end.
