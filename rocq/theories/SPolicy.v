(* Specification for C144: the texts goroutines get that print one operation at once. *)
From Coq Require Import String List PeanoNat.
From Verif Require Import MFilter MPolicy.
Import ListNotations.
Open Scope string_scope.

(* everything the goroutines got after the schedule q (which goroutine moves, in order of
   time) when goroutine k calls String (nth k ns) times *)
Definition texts (o : afo) (ns : list nat) (q : list nat) : list string :=
  flat_map got (snd (go_run o (go_start ns) q)).
(* no two goroutines are inside the method at the same time *)
Definition in_turn (o : afo) (ns : list nat) (q : list nat) : Prop :=
  forall a b, q = (a ++ b)%list -> forall i j gi gj,
    nth_error (snd (go_run o (go_start ns) a)) i = Some gi -> whereat gi <> Outside ->
    nth_error (snd (go_run o (go_start ns) a)) j = Some gj -> whereat gj <> Outside -> i = j.
(* add= or delete=, k times, before the filters *)
Fixpoint times (k : nat) (p s : string) : string := match k with O => s | S k => p ++ times k p s end.
