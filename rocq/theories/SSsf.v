(* Specification for C167, C168: one SecurityStrengthFactor variable and several goroutines
   that call Set and String on it. *)
From Coq Require Import String List PeanoNat NArith ZArith Bool.
From Verif Require Import GoStr MMisc MSec MSsf.
Import ListNotations.

(* the values that calls give: a factor or nothing *)
Definition s_gives (css : list (list scall)) (x : ssfv) : Prop := exists cs f c, In cs css /\ In (SSet f) cs /\ f <> SOther /\ x = ssf_set c f.
(* arguments that take the factor away *)
Definition clears (f : sarg) : Prop := ssf_set (Some (Some 0%N)) f = Some None.
Definition s_ended (g : sgo) : Prop := stodo g = [] /\ sph g = SIdle \/ sph g = SPanic.
Definition s_returned (g : sgo) : Prop := stodo g = [] /\ sph g = SIdle.
(* the value that calls leave, one after the other *)
Fixpoint s_left (x : ssfv) (cs : list scall) : ssfv :=
  match cs with [] => x | SSet f :: r => s_left (ssf_set x f) r | SString :: r => s_left x r end.
(* the texts that the calls of one goroutine return when nobody else calls Set *)
Fixpoint s_alone (x : ssfv) (cs : list scall) : list string :=
  match cs with [] => [] | SSet f :: r => s_alone (ssf_set x f) r | SString :: r => ssf_string x :: s_alone x r end.
Definition s_texts (g : sgo) : list string := flat_map (fun r => match r with SText s => [s] | SVar _ => [] end) (sres_of g).
