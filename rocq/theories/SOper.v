(* Specification for C120: the operator a rule tells. *)
From Coq Require Import String Ascii List NArith ZArith Bool.
From Verif Require Import GoStr MKw MRights MRule MConv MTree MAci MView MOper SKw.
Import ListNotations.
Open Scope string_scope.

(* the argument is an operator: its constant, or a text that names it *)
Definition given (op : oparg) (o : relop) : Prop :=
  match op with OCop n => n = relop_const o | OStr s => names_relop s o | _ => False end.
(* an initialised rule takes an operator when it is = or when its keyword admits it *)
Definition takes_bind (r : orule) (op : oparg) (o : relop) : Prop :=
  given op o /\ exists c, o_rule r = Some c /\
    (o = REq \/ exists k, eqfold (c_kw c) (bindkw_name k) = true /\ bindkw_allows k o = true).
Definition takes_target (r : orule) (op : oparg) (o : relop) : Prop :=
  given op o /\ exists c, o_rule r = Some c /\
    (o = REq \/ exists k, eqfold (c_kw c) (targetkw_name k) = true /\ targetkw_allows k o = true).
(* a history in which no operator is taken *)
Definition quiet_bind (r : orule) (h : list bcall) : Prop :=
  forall h1 op h2 o, h = (h1 ++ BOperator op :: h2)%list -> ~ takes_bind (obr_run r h1) op o.
Definition quiet_target (r : orule) (h : list tcall) : Prop :=
  forall h1 op h2 o, h = (h1 ++ TOperator op :: h2)%list -> ~ takes_target (otr_run r h1) op o.
(* the operator a rule prints *)
Definition prints_op (r : orule) (o : relop) : Prop :=
  exists c, o_rule r = Some c /\ c_op c = Some (relop_const o).
(* a rule somewhere in a tree *)
Inductive holds : tree -> cond -> Prop :=
| h_leaf c : holds (Leaf c) c
| h_kid w p f d kids t c : In t kids -> holds t c -> holds (Stk w p f d kids) c.
(* a rule obtained by parsing: alone, in a list of target rules, in the target rules of
   an instruction, or in a tree of bind rules *)
Definition from_parser (W : world) (r : orule) : Prop :=
  exists x, r = o_parsed x /\  ((exists raw, parseBindRule W raw = Gives x) \/ (exists raw, parseTargetRule W raw = Gives x) \/
   (exists raw l, parseTargetRules W raw = Gives l /\ In x l) \/
   (exists raw i, parseInstruction W raw = Gives (Some i) /\ In x (i_trs i)) \/
   (exists brs raw t c, parseBindRules W brs raw = Gives (Some t) /\ holds t c /\ x = Some c)).
