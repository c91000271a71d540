(* Specification for C155, C156: goroutines that call Set on one variable. *)
From Coq Require Import List PeanoNat Bool.
From Verif Require Import MFirst SWord.
Import ListNotations.

Section First.
Context {V C : Type}.
Variable T : ftype V C.
(* no goroutine is in a call *)
Definition f_quiet (st : fstate V C) : Prop := forall g, In g (fgos st) -> fat g = FOff.
(* all calls have returned *)
Definition f_returned (st : fstate V C) : Prop := forall g, In g (fgos st) -> fcalls g = [] /\ fat g = FOff.
(* the variable is set, and no call makes its value one that counts as zero *)
Definition f_holds (v : V) (css : list (list C)) : Prop :=
  fzero T v = false /\ forall cs c w, In cs css -> In c cs -> fzero T w = false -> fzero T (fupd T w c) = false.
(* no two goroutines are in a call at the same time *)
Definition f_turns (st : fstate V C) (q : list nat) : Prop :=
  forall a b, q = (a ++ b)%list -> forall i j gi gj,
    nth_error (fgos (f_sched T st a)) i = Some gi -> fat gi <> FOff ->
    nth_error (fgos (f_sched T st a)) j = Some gj -> fat gj <> FOff -> i = j.
End First.
(* h is an order of beginnings, or of ends, of the lists in which each list keeps its order *)
Definition beginnings {E} (ess : list (list E)) (h : list (nat * E)) : Prop :=
  (forall k e, In (k, e) h -> (k < List.length ess)%nat) /\
  forall k es, nth_error ess k = Some es -> exists rest, es = (map snd (filter (fun p => Nat.eqb (fst p) k) h) ++ rest)%list.
Definition ends {E} (ess : list (list E)) (h : list (nat * E)) : Prop :=
  (forall k e, In (k, e) h -> (k < List.length ess)%nat) /\
  forall k es, nth_error ess k = Some es -> exists lost, es = (lost ++ map snd (filter (fun p => Nat.eqb (fst p) k) h))%list.
