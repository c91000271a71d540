(* The Go type of a rule's operator (/repo/stackage.go, bind.go, target.go).
   Definitions only.

   A go-stackage Condition holds its operator as an interface.  SetOperator of this
   package stores a ComparisonOperator of this package.  The conditions the parser
   returns hold an operator of another type: the parser is a package this one imports
   (parse.go:3-10), so it cannot name this package's types.  MRule.v keeps the number
   of the operator only; here its type is kept beside it.  Nothing but SetOperator
   stores an operator: bind.go and target.go call it nowhere else, and the conversion
   of parsed values (parse.go:325-392, 514-560) sets expressions only. *)
From Coq Require Import String Ascii List PeanoNat NArith ZArith Bool.
From Verif Require Import GoStr MMisc MLists MKw MRights MRule MConv MTree MAci.
Import ListNotations.
Open Scope string_scope.

(* a rule, and whether the operator it holds is of this package's type *)
Record orule := MkO { o_rule : rule; o_own : bool }.

(* stackage.go:291-300 castCop: the zero operator for every other type.
   bind.go:376-378 and target.go:467-469 Operator *)
Definition or_operator (r : orule) : N :=
  if o_own r then match o_rule r with Some c => match c_op c with Some n => n | None => badCop end | None => badCop end
  else badCop.
(* what cop.go:135-148 is given: an operator of another type falls to the default case *)
Definition or_oparg (own : bool) (o : option N) : oparg :=
  match o with Some n => if own then OCop n else OOther | None => OOther end.
(* target.go:239-254 Valid *)
Definition otr_valid (r : orule) : bool :=
  match o_rule r with
  | None => false
  | Some c => keywordAllowsComparisonOperator (KStr (c_kw c)) (or_oparg (o_own r) (c_op c)) && cond_valid c
  end.
(* bind.go:310-318 Valid does not look at the operator's type *)
Definition obr_valid (r : orule) : bool := br_valid (o_rule r).
(* bind.go:345-350, target.go:304-315 String: the operator prints itself whatever its type *)
Definition obr_string (r : orule) : string := br_string (o_rule r).
Definition otr_string (r : orule) : string := tr_string (o_rule r).

(* bind.go:710-743 SetOperator *)
Definition obr_set_operator (op : oparg) (r : orule) : orule :=
  let cop := op_arg op in
  if (negb (cop =? Eq)%N && negb (keywordAllowsComparisonOperator (KBind (br_keyword (o_rule r))) op))%bool then r
  else if (cop =? 0)%N then r
  else match o_rule r with Some c => MkO (Some (with_op c cop)) true | None => r end.
(* target.go:406-440 SetOperator *)
Definition otr_set_operator (op : oparg) (r : orule) : orule :=
  let cop := op_arg op in
  if (cop =? 0)%N then r
  else if (negb (cop =? Eq)%N && negb (keywordAllowsComparisonOperator (KTarget (tr_keyword (o_rule r))) op))%bool then r
  else match o_rule r with Some c => MkO (Some (with_op c cop)) true | None => r end.
(* the calls of MRule.v; those other than SetOperator leave the operator as it is *)
Definition obr_step (r : orule) (c : bcall) : orule :=
  match c with BOperator op => obr_set_operator op r | _ => MkO (br_step (o_rule r) c) (o_own r) end.
Definition otr_step (r : orule) (c : tcall) : orule :=
  match c with TOperator op => otr_set_operator op r | _ => MkO (tr_step (o_rule r) c) (o_own r) end.
Definition obr_run (r : orule) (h : list bcall) : orule := fold_left obr_step h r.
Definition otr_run (r : orule) (h : list tcall) : orule := fold_left otr_step h r.

(* a variable of the type before anything was called on it *)
Definition o_zero : orule := MkO None false.
(* bind.go:126-146 BR, target.go:188-234 TR *)
Definition oBR (rulePadding : bool) (kw : string) (op : oparg) (ex : option expr) : orule :=
  let r := obr_run o_zero [BInit; BKeyword kw; BOperator op; BExpression ex] in
  MkO (on_cond (fun c => with_pad (with_quoted c true) rulePadding) (o_rule r)) (o_own r).
Definition oTR (rulePadding : bool) (kw : kwarg) (op : oparg) (ex : option expr) : orule :=
  let r := otr_run o_zero [TInit; TKeyword kw; TOperator op; TExpression ex] in
  MkO (on_cond (fun c => with_pad (with_paren (with_quoted c true) true) rulePadding) (o_rule r)) (o_own r).

(* a rule that came out of the parser: parse.go:35-38 parseBindRule, 404-409
   parseTargetRule, and the members of what parse.go:69-97, 451-470 and 982-1026 make *)
Definition o_parsed (r : rule) : orule := MkO r false.
