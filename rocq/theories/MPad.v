(* Model of the package variables RulePadding and StackPadding (/repo/misc.go:60-77)
   and of the constructors that consult them.  Definitions only. *)
From Coq Require Import String Ascii List PeanoNat NArith ZArith Bool.
From Verif Require Import GoStr MMisc MLists MKw MRule MTree.
Import ListNotations.
Open Scope string_scope.

(* The text of a list of values made by UDNs, GDNs, RDNs, TDNs, TTDNs, TFDNs
   (dn.go:1447-1675), ExtOps, Ctrls (oid.go:553-620) or TAs (attr.go:795-807): an OR
   stack with the symbol || and NoPadding(!StackPadding).  With padding this is
   MRule.list_text.  go-stackage is not available: without padding the blanks around
   the symbol are missing (misc.go:71-76). *)
Definition bars (pad : bool) : string := padding pad ++ "||" ++ padding pad.
Definition vals_text (pad sliced : bool) (vals : list string) : string :=
  join (bars pad) (if sliced then map quote vals else vals).

(* An instance: a bind rule, a target rule, a stack of bind rules, a list of values
   with the padding it was made with, a list of target rules. *)
Inductive obj :=
| ObBR (r : rule) | ObTR (r : rule) | ObStk (t : tree)
| ObVals (pad : bool) (vals : list string)
| ObTRs (spaced : bool) (l : list rule).
(* misc.go:68 RulePadding, misc.go:77 StackPadding, and the instances made so far *)
Record pst := MkP { p_rule : bool; p_stack : bool; p_objs : list obj }.
Definition pst0 : pst := MkP true true [].

(* What a program does: assign one of the variables; make an instance; call
   NoPadding(b) or Paren(b) on instance i.  The members given to a constructor are values that
   are not used otherwise (sharing is modelled in MGraph.v and MInst.v). *)
Inductive pev :=
| ERulePadding (b : bool) | EStackPadding (b : bool)
| EBR (kw : string) (op : oparg) (ex : option expr)
| ETR (kw : kwarg) (op : oparg) (ex : option expr)
| EStk (w : word) (xs : list barg)
| EVals (vals : list string)
| EBROf (i : nat) (kw : string) (op : oparg)
| ETRs (xs : list trarg)
| ENoPadding (i : nat) (b : bool)
| EParen (i : nat) (b : bool).

Section Pad.
Variable stop : bool. (* whether a push stops at the first refusal, see MLists.v *)
(* bind.go:355-362, target.go:320-327, bind.go:996-999, target.go:642-660 NoPadding(b).
   Lists of values have no such method. *)
Definition obj_nopadding (b : bool) (o : obj) : obj :=
  match o with
  | ObBR r => ObBR (br_nopadding b r)
  | ObTR r => ObTR (tr_nopadding b r)
  | ObStk t => ObStk (brs_nopadding b t)
  | ObVals p v => ObVals p v
  | ObTRs _ l => ObTRs (negb b) l
  end.
(* bind.go:295-298, bind.go:961-964 Paren(b); the other types have no such method *)
Definition obj_paren (b : bool) (o : obj) : obj :=
  match o with
  | ObBR r => ObBR (br_paren b r)
  | ObStk t => ObStk (brs_paren b t)
  | _ => o
  end.
Fixpoint update (i : nat) (f : obj -> obj) (l : list obj) : list obj :=
  match l, i with
  | [], _ => []
  | o :: l, O => f o :: l
  | o :: l, S i => o :: update i f l
  end.
Definition add (s : pst) (o : obj) : pst := MkP (p_rule s) (p_stack s) (p_objs s ++ [o]).
(* String of an instance; [topnot] and [notsep] as in MTree.v *)
Definition obj_text (topnot : bool) (notsep : string) (o : obj) : string :=
  match o with
  | ObBR r => br_string r
  | ObTR r => tr_string r
  | ObStk t => brs_string topnot notsep t
  | ObVals p v => vals_text p false v
  | ObTRs spaced l => trs_string spaced l
  end.
Definition pstep (s : pst) (e : pev) : pst :=
  match e with
  | ERulePadding b => MkP b (p_stack s) (p_objs s)
  | EStackPadding b => MkP (p_rule s) b (p_objs s)
  (* bind.go:126-146 *)
  | EBR kw op ex => add s (ObBR (BR (p_rule s) kw op ex))
  (* target.go:188-234 *)
  | ETR kw op ex => add s (ObTR (TR (p_rule s) kw op ex))
  (* bind.go:420-525 *)
  | EStk w xs => add s (ObStk (brs_new stop (p_stack s) w xs))
  | EVals vals => add s (ObVals (p_stack s) vals)
  (* a bind rule with the list of values i as its expression; nothing is made
     when there is no such list *)
  | EBROf i kw op =>
      match nth_error (p_objs s) i with
      | Some (ObVals p v) => add s (ObBR (BR (p_rule s) kw op (Some (XText (vals_text p false v)))))
      | _ => s
      end
  (* target.go:524-553: the delimiter is empty; RulePadding has no visible effect
     since there is no delimiter to put blanks around (target.go:522, C109) *)
  | ETRs xs => add s (ObTRs false (trs_push stop [] xs))
  | ENoPadding i b => MkP (p_rule s) (p_stack s) (update i (obj_nopadding b) (p_objs s))
  | EParen i b => MkP (p_rule s) (p_stack s) (update i (obj_paren b) (p_objs s))
  end.
Definition prun (h : list pev) : pst := fold_left pstep h pst0.
End Pad.
