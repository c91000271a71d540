(* Specification for C153, C154: one FQDN, several goroutines that call Set and String. *)
From Coq Require Import String Ascii List PeanoNat Bool.
From Verif Require Import GoStr MNet SNet MLabel.
Import ListNotations.

(* only goroutine w calls Set *)
Definition d_only_writer (w : nat) (css : list (list dcall)) : Prop :=
  forall k cs c, nth_error css k = Some cs -> k <> w -> In c cs -> c = DString.
(* in a call of Set that adds labels *)
Definition d_writing (p : dplace) : Prop := match p with Put _ | DHave _ _ _ _ | DStore _ _ _ _ => True | _ => False end.
(* no two goroutines are in calls of Set that add labels at the same time *)
Definition d_turns (spare : nat -> nat) (st : dstate) (q : list nat) : Prop :=
  forall a b, q = (a ++ b)%list -> forall i j gi gj,
    nth_error (dgos (d_sched spare st a)) i = Some gi -> d_writing (dat gi) ->
    nth_error (dgos (d_sched spare st a)) j = Some gj -> d_writing (dat gj) -> i = j.
(* all calls have returned *)
Definition d_returned (st : dstate) : Prop := forall g, In g (dgos st) -> dtodo g = [] /\ dat g = DRest.
(* the arguments of the calls of Set *)
Definition d_sets (cs : list dcall) : list (list string) := flat_map (fun c => match c with DSet label => [label] | DString => [] end) cs.
(* x is a label, and a piece between dots of an argument of one of the calls *)
Definition d_given (css : list (list dcall)) (x : string) : Prop :=
  label_ok x /\ exists cs label, In cs css /\ In (DSet label) cs /\ In x (flat_map (split1 "."%char) label).
(* from step to step the name does not get shorter *)
Definition d_not_shorter (spare : nat -> nat) (st : dstate) (q : list nat) : Prop :=
  forall a i b, q = (a ++ i :: b)%list ->
    (List.length (dshown (d_sched spare st a)) <= List.length (dshown (d_sched spare st (a ++ [i]))))%nat.
