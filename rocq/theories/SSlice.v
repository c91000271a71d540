(* Specification for C151, C152: one IPAddr, several goroutines that call Set and String. *)
From Coq Require Import String List PeanoNat Bool.
From Verif Require Import GoStr MNet MSlice.
Import ListNotations.

(* the addresses a goroutine gives, in order *)
Definition gives (cs : list ipcall) : list string := flat_map (fun c => match c with ISet addr => addr | IString => [] end) cs.
(* only goroutine w calls Set *)
Definition only_writer (w : nat) (css : list (list ipcall)) : Prop :=
  forall k cs c, nth_error css k = Some cs -> k <> w -> In c cs -> c = IString.
(* in Set, at work on an argument *)
Definition writing (p : ipplace) : Prop := match p with Scan _ _ _ _ | Fits _ | Have _ _ _ | Store _ _ _ => True | _ => False end.
(* no two goroutines are at work on an argument of Set at the same time *)
Definition turns (spare : nat -> nat) (st : ipstate) (q : list nat) : Prop :=
  forall a b, q = (a ++ b)%list -> forall i j gi gj,
    nth_error (gos (ip_sched spare st a)) i = Some gi -> writing (iat gi) ->
    nth_error (gos (ip_sched spare st a)) j = Some gj -> writing (iat gj) -> i = j.
(* all calls have returned *)
Definition returned (st : ipstate) : Prop := forall g, In g (gos st) -> todo g = [] /\ iat g = Rest.
(* the arguments of the calls of Set *)
Definition sets (cs : list ipcall) : list (list string) := flat_map (fun c => match c with ISet addr => [addr] | IString => [] end) cs.
(* given to some call, and an address *)
Definition given_address (css : list (list ipcall)) (x : string) : Prop :=
  x <> ""%string /\ isValidIP x = true /\ exists cs, In cs css /\ In x (gives cs).
(* the text a call of String returned for the addresses it saw *)
Definition text_of (r : option (list string)) : option string := option_map (fun l => ipaddr_string (Some l)) r.
(* from step to step the list does not get shorter *)
Definition not_shorter (spare : nat -> nat) (st : ipstate) (q : list nat) : Prop :=
  forall a i b, q = (a ++ i :: b)%list ->
    (List.length (shown (ip_sched spare st a)) <= List.length (shown (ip_sched spare st (a ++ [i]))))%nat.
