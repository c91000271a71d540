(* Specification for C146: a list several goroutines push on. *)
From Coq Require Import List PeanoNat Bool.
From Verif Require Import MLists MRace.
Import ListNotations.

(* nobody is in a call and nothing is left to push *)
Definition finished {A} (st : rstate A) : Prop := forall g, In g (snd st) -> queue g = [] /\ pat g = Ready.
(* no two goroutines are in a call at the same time *)
Definition by_turns {A} (same : A -> A -> bool) (good : A -> bool) (xss : list (list A)) (q : list nat) : Prop :=
  forall a b, q = (a ++ b)%list -> forall i j gi gj,
    nth_error (snd (race_run A same good (race_start A xss) a)) i = Some gi -> pat gi <> Ready ->
    nth_error (snd (race_run A same good (race_start A xss) a)) j = Some gj -> pat gj <> Ready -> i = j.
(* no member is the same as one before it *)
Inductive unique {A} (same : A -> A -> bool) : list A -> Prop :=
| un_nil : unique same []
| un_snoc : forall l x, unique same l -> (forall y, In y l -> same y x = false) -> unique same (l ++ [x]).
(* how many members are the same as x; how many goroutines push such a value *)
Definition copies {A} (same : A -> A -> bool) (x : A) (l : list A) : nat := List.length (filter (fun y => same y x) l).
Definition pushing {A} (same : A -> A -> bool) (x : A) (xss : list (list A)) : nat :=
  List.length (filter (existsb (fun y => same y x)) xss).
