(* Specification for C147: one instruction, several goroutines that call Set with labels. *)
From Coq Require Import String List PeanoNat Bool.
From Verif Require Import GoStr MOnce.
Import ListNotations.
Open Scope string_scope.

(* a label, once there is one, stays: between every two moments of the run *)
Definition label_stays (v : option string) (css : list (list (list string))) (q : list nat) : Prop :=
  forall a b c, q = (a ++ b ++ c)%list -> label_of (once_run (once_start v css) a) <> "" ->
    label_of (once_run (once_start v css) (a ++ b)) = label_of (once_run (once_start v css) a).
(* no two goroutines are in a call at the same time *)
Definition one_by_one (v : option string) (css : list (list (list string))) (q : list nat) : Prop :=
  forall a b, q = (a ++ b)%list -> forall i j gi gj,
    nth_error (setters (once_run (once_start v css) a)) i = Some gi -> oat gi <> Off ->
    nth_error (setters (once_run (once_start v css) a)) j = Some gj -> oat gj <> Off -> i = j.
(* how often the label is seen to change *)
Fixpoint changes (st : ostate) (q : list nat) : nat :=
  match q with
  | [] => 0
  | i :: q => (if String.eqb (label_of st) (label_of (once_step st i)) then 0 else 1) + changes (once_step st i) q
  end.
(* the goroutines that give a label at all *)
Definition gives_label (cs : list (list string)) : bool := existsb (fun x => negb (String.eqb x "")) (concat cs).
Definition naming (css : list (list (list string))) : nat := List.length (filter gives_label css).
(* all calls have returned *)
Definition all_done (st : ostate) : Prop := forall g, In g (setters st) -> calls g = [] /\ oat g = Off.
(* the goroutines that call Set at all *)
Definition calling (css : list (list (list string))) : nat := List.length (filter (fun cs => negb (Nat.eqb (List.length cs) 0)) css).
