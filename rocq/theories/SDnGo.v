(* Specification for C169, C170: one distinguished name variable and several goroutines that
   call Set, String and Eq on it. *)
From Coq Require Import String List PeanoNat NArith Bool.
From Verif Require Import GoStr MLists MDnGo.
Import ListNotations.

(* the keywords and texts that calls give: a call with an empty text gives nothing *)
Definition d_gives_kw (css : list (list dncall)) (k : N) : Prop := exists cs x, In cs css /\ In (DSet x k) cs /\ x <> EmptyString.
Definition d_gives_text (css : list (list dncall)) (s : string) : Prop := exists cs x k, In cs css /\ In (DSet x k) cs /\ x <> EmptyString /\ s = chopDNPfx x.
Definition d_ended (g : dgo) : Prop := dtodo g = [] /\ dph g = DIdle \/ dph g = DPanic.
Definition d_returned (g : dgo) : Prop := dtodo g = [] /\ dph g = DIdle.
(* goroutine g is in a call of String, of Eq and String of the rule *)
Definition in_string (g : dgo) : Prop := dph g = DCheck 0 \/ dph g = DName 0.
Definition in_rule (g : dgo) : Prop := dph g = DAsk 0 \/ dph g = DKey 0 \/ exists k, dph g = DPrint k 0.
(* the name that calls leave, one after the other *)
Fixpoint d_left (d : dname) (cs : list dncall) : dname :=
  match cs with [] => d | DSet x k :: r => d_left (dname_set d x k) r | _ :: r => d_left d r end.
(* the texts and rules that the calls of one goroutine return when nobody else calls Set *)
Fixpoint d_alone (bad : string) (d : dname) (cs : list dncall) : list (string + N * string) :=
  match cs with
  | [] => []
  | DSet x k :: r => d_alone bad (dname_set d x k) r
  | DString :: r => inl (dn_string bad (Some d)) :: d_alone bad d r
  | DRule :: r => inr (dn_kw d, dn_string bad (Some d)) :: d_alone bad d r
  end.
Definition d_said (g : dgo) : list (string + N * string) :=
  flat_map (fun r => match r with DStr s => [inl s] | DEq k s => [inr (k, s)] | _ => [] end) (dres_of g).
