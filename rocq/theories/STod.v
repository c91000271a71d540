(* Specification for C165, C166: one TimeOfDay variable and several goroutines that call Set
   and String on it. *)
From Coq Require Import String List PeanoNat NArith Bool.
From Verif Require Import GoStr MTime MTod.
Import ListNotations.

(* the times that the calls give *)
Definition t_gives (css : list (list tcall)) (t : tod) : Prop := exists cs x, In cs css /\ In (TSet x) cs /\ t = ToD [x].
Definition t_returned (st : tstate) : Prop := forall g, In g (tgos st) -> ttodo g = [] /\ tph g = TIdle.
(* what the calls of one goroutine return when nobody else calls Set: a time per Set, a text
   per String *)
Fixpoint t_alone (t : tod) (cs : list tcall) : list (tod + string) :=
  match cs with
  | [] => []
  | TSet x :: r => inl (ToD [x]) :: t_alone (ToD [x]) r
  | TString :: r => inr (tod_string t) :: t_alone t r
  end.
(* the results of a goroutine, read in a state *)
Definition t_results (st : tstate) (g : tgo) : list (tod + string) :=
  map (fun r => match r with RTime p => inl (time_at (theap st) p) | RText s => inr s end) (tres_of g).
(* the time that calls leave, one after the other *)
Fixpoint t_left (t : tod) (cs : list tcall) : tod :=
  match cs with [] => t | TSet x :: r => t_left (ToD [x]) r | TString :: r => t_left t r end.
