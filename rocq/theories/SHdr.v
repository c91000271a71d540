(* Specification for C171, C172: one SearchFilter variable and several goroutines that call Set
   and String on it. *)
From Coq Require Import String List PeanoNat Bool.
From Verif Require Import GoStr MHdr.
Import ListNotations.

(* the texts that calls give: a call with an empty text gives nothing *)
Definition h_gives (css : list (list hcall)) (x : string) : Prop := exists cs, In cs css /\ In (HSet x) cs /\ x <> EmptyString.
Definition h_text (s : string) (css : list (list hcall)) (x : string) : Prop := x = s \/ h_gives css x.
Definition h_returned (g : hgo) : Prop := htodo g = [] /\ hph g = HIdle.
Definition h_sets (s x : string) : string := match x with EmptyString => s | _ => x end.
(* the text that calls leave, one after the other *)
Fixpoint h_left (s : string) (cs : list hcall) : string :=
  match cs with [] => s | HSet x :: r => h_left (h_sets s x) r | HString :: r => h_left s r end.
(* the texts that the calls of one goroutine return when nobody else calls Set *)
Fixpoint h_alone (s : string) (cs : list hcall) : list string :=
  match cs with [] => [] | HSet x :: r => h_alone (h_sets s x) r | HString :: r => s :: h_alone s r end.
Definition h_said (g : hgo) : list string := flat_map (fun r => match r with HText s => [s] | HDone => [] end) (hres_of g).
