(* Specification for C161, C162: one permission-bind rule and several goroutines that call
   Set and String on it. *)
From Coq Require Import String List PeanoNat Bool.
From Verif Require Import GoStr MRights MConv MAci MPb.
Import ListNotations.

Section Spec.
Variable W : world.
(* an argument that Set takes *)
Definition taken (x : pbarg) : Prop :=
  match x with
  | PAStr s => exists v, parsePBR W s = Gives (Some v)
  | PAPerm p => perm_valid p = true
  | PABind b => bctx_valid b = true
  | PAOther => True
  end.
(* the permission, the bind rule that an argument stands for *)
Definition stands_p (x : pbarg) (p : permission) : Prop :=
  x = PAPerm p \/ exists s v, x = PAStr s /\ parsePBR W s = Gives (Some v) /\ pb_p v = p.
Definition stands_b (x : pbarg) (b : bctx) : Prop :=
  x = PABind b \/ exists s v, x = PAStr s /\ parsePBR W s = Gives (Some v) /\ pb_b v = Some b.
(* some goroutine gives the argument x: in a call of Set in which all arguments before x,
   and x, are taken *)
Definition q_gives (css : list (list qcall)) (x : pbarg) : Prop :=
  exists cs a b, In cs css /\ In (QSet (a ++ x :: b)) cs /\ Forall taken (a ++ [x]).
(* the text of a permission and a bind rule *)
Definition rule_shown (p : permission) (b : bctx) : string :=
  (perm_string (e_shifty (w_env W)) p ++ " " ++ bctx_string W b ++ ";")%string.
(* all calls have returned; no two goroutines are in a call at the same time *)
Definition q_returned (st : qstate) : Prop := forall g, In g (qgos st) -> qtodo g = [] /\ qcur g = [].
Definition q_turns (st : qstate) (q : list nat) : Prop :=
  forall a b, q = (a ++ b)%list -> forall i j gi gj,
    nth_error (qgos (q_sched W st a)) i = Some gi -> qcur gi <> [] ->
    nth_error (qgos (q_sched W st a)) j = Some gj -> qcur gj <> [] -> i = j.
(* calls of Set, each with one text that can be read, and calls of String *)
Definition whole_calls (cs : list qcall) : Prop :=
  forall c, In c cs -> c = QString \/ exists s v, c = QSet [PAStr s] /\ parsePBR W s = Gives (Some v).
(* the rules that the texts of the calls give *)
Definition whole_gives (css : list (list qcall)) (v : pbrec) : Prop :=
  exists cs s, In cs css /\ In (QSet [PAStr s]) cs /\ parsePBR W s = Gives (Some v).
(* calls that give no permission, no bind rule *)
Definition no_perm (cs : list qcall) : Prop := forall xs x p, In (QSet xs) cs -> In x xs -> ~ stands_p x p.
Definition no_bind (cs : list qcall) : Prop := forall xs x b, In (QSet xs) cs -> In x xs -> ~ stands_b x b.
(* the arguments of the calls of Set, call by call *)
Definition sets_of (cs : list qcall) : list (list pbarg) :=
  flat_map (fun c => match c with QSet xs => [xs] | QString => [] end) cs.
End Spec.
