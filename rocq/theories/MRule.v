(* Model of the individual rules: BindRule (/repo/bind.go), TargetRule and
   TargetRules (/repo/target.go).  Definitions only.

   A rule is a go-stackage Condition.  That library is not available here; the
   model keeps its observable fields and the text format shown by the project's
   own tests (bind_test.go, target_test.go, parse_test.go:170-190). *)
From Coq Require Import String Ascii List PeanoNat NArith ZArith Bool.
From Verif Require Import GoStr MMisc MLists MKw.
Import ListNotations.
Open Scope string_scope.

Definition dq : string := String """" EmptyString.

(* the four list types whose quotation style can be chosen *)
Inductive lkind := LBindDN | LTargetDN | LAttrs | LOids.
(* What a rule can hold as its expression: a value with one text (the text its
   String method gives); one of the list types, with its own quotation flag and
   the texts of its members; or the parser's RuleExpression (parse.go:123-128). *)
Inductive expr :=
| XText (s : string)
| XList (k : lkind) (sliced : bool) (vals : list string)
| XRaw (style : Z) (vals : list string).

(* the fields of a Condition: keyword text, operator, expression, whether the
   value is put in double quotes (Encap), parentheses, padding *)
Record cond := MkCond { c_kw : string; c_op : option N; c_ex : option expr;
                        c_quoted : bool; c_paren : bool; c_pad : bool }.
(* None is the zero (uninitialised) rule *)
Definition rule := option cond.
(* Condition.Init *)
Definition cond_init : cond := MkCond "" None None false false true.

(* misc.go:50,59 *)
Definition MultivalOuterQuotes : Z := 1.
Definition MultivalSliceQuotes : Z := 0.

(* text of an expression.  A list is joined by " || ", every member in double
   quotes when the slice style is on.  Simplification: StackPadding (misc.go:77)
   has its default, true; with false the blanks around || would be missing. *)
Definition quote (s : string) : string := dq ++ s ++ dq.
Definition list_text (sliced : bool) (vals : list string) : string :=
  join " || " (if sliced then map quote vals else vals).
(* the text of a RuleExpression is not modelled: the values are joined like those of a list *)
Definition expr_text (e : expr) : string :=
  match e with
  | XText s => s
  | XList _ sliced vals => list_text sliced vals
  | XRaw _ vals => list_text false vals
  end.
Definition op_text (o : option N) : string := match o with Some n => cop_string n | None => "" end.
Definition val_text (c : cond) : string :=
  let t := match c_ex c with Some e => expr_text e | None => "" end in
  if c_quoted c then quote t else t.
(* Condition.String *)
Definition padding (b : bool) : string := if b then " " else "".
Definition wrap_paren (paren pad : bool) (t : string) : string :=
  if paren then "(" ++ padding pad ++ t ++ padding pad ++ ")" else t.
Definition cond_string (c : cond) : string :=
  wrap_paren (c_paren c) (c_pad c)
    (c_kw c ++ padding (c_pad c) ++ op_text (c_op c) ++ padding (c_pad c) ++ val_text c).
(* Condition.Valid: initialised, with a keyword, an operator and an expression *)
Definition cond_valid (c : cond) : bool :=
  negb (String.length (c_kw c) =? 0)%nat &&
  match c_op c with Some n => negb (n =? 0)%N | None => false end &&
  match c_ex c with Some _ => true | None => false end.

Definition with_kw (c : cond) (k : string) : cond := MkCond k (c_op c) (c_ex c) (c_quoted c) (c_paren c) (c_pad c).
Definition with_op (c : cond) (o : N) : cond := MkCond (c_kw c) (Some o) (c_ex c) (c_quoted c) (c_paren c) (c_pad c).
Definition with_ex (c : cond) (e : option expr) : cond := MkCond (c_kw c) (c_op c) e (c_quoted c) (c_paren c) (c_pad c).
Definition with_quoted (c : cond) (b : bool) : cond := MkCond (c_kw c) (c_op c) (c_ex c) b (c_paren c) (c_pad c).
Definition with_paren (c : cond) (b : bool) : cond := MkCond (c_kw c) (c_op c) (c_ex c) (c_quoted c) b (c_pad c).
Definition with_pad (c : cond) (b : bool) : cond := MkCond (c_kw c) (c_op c) (c_ex c) (c_quoted c) (c_paren c) b.
Definition on_cond (f : cond -> cond) (r : rule) : rule := match r with Some c => Some (f c) | None => None end.

(* the operator an argument of type any carries; others leave it zero *)
Definition op_arg (op : oparg) : N :=
  match op with OStr s => matchCOP s | OCop n => n | _ => badCop end.

(* ---------------- bind rules ---------------- *)
(* bind.go:367-371 Keyword *)
Definition br_keyword (r : rule) : N := match r with Some c => matchBKW (c_kw c) | None => 0%N end.
(* bind.go:165-172 Init *)
Definition br_init (r : rule) : rule := match r with Some c => Some c | None => Some cond_init end.
(* bind.go:698-705 SetKeyword; the argument is represented by the text
   go-stackage takes from it (a string, or the String of a keyword).  On a zero
   receiver the text goes to a copy and is lost. *)
Definition br_set_keyword (kw : string) (r : rule) : rule :=
  match r with Some c => Some (with_kw c kw) | None => Some cond_init end.
(* bind.go:710-743 SetOperator *)
Definition br_set_operator (op : oparg) (r : rule) : rule :=
  let cop := op_arg op in
  if (negb (cop =? Eq)%N && negb (keywordAllowsComparisonOperator (KBind (br_keyword r)) op))%bool then r
  else if (cop =? 0)%N then r
  else on_cond (fun c => with_op c cop) r.
(* bind.go:748-755 SetExpression; on a zero receiver a copy is changed and lost *)
Definition br_set_expression (e : option expr) (r : rule) : rule := on_cond (fun c => with_ex c e) r.
(* bind.go:295-298 Paren(state), 355-362 NoPadding(state) *)
Definition br_paren (b : bool) (r : rule) : rule := on_cond (fun c => with_paren c b) r.
Definition br_nopadding (b : bool) (r : rule) : rule := on_cond (fun c => with_pad c (negb b)) r.
(* dn.go:638-671, attr.go:601-615, oid.go:400-414 setQuoteStyle of a list *)
Definition list_style (style : Z) (vals : list string) : bool :=
  if (List.length vals <? 2)%nat then false else (style =? MultivalSliceQuotes)%Z.
(* bind.go:768-802 SetQuoteStyle *)
Definition br_set_quote_style (style : Z) (r : rule) : rule :=
  match r with
  | None => None
  | Some c =>
      let key := br_keyword r in
      match c_ex c with
      | Some (XList LBindDN sliced vals) =>
          let sliced' := if ((key =? BindUDN) || (key =? BindGDN) || (key =? BindRDN))%N%bool
                         then list_style style vals else sliced in
          Some (with_quoted (with_ex c (Some (XList LBindDN sliced' vals)))
                            (negb (style =? MultivalSliceQuotes)%Z))
      | _ => Some (with_quoted c true)
      end
  end.
(* bind.go:310-318 Valid *)
Definition br_valid (r : rule) : bool := match r with Some c => cond_valid c | None => false end.
(* bind.go:345-350 String *)
Definition br_string (r : rule) : string := match r with Some c => cond_string c | None => "" end.
(* bind.go:126-146 BR, newBindRule; [rulePadding] is the variable RulePadding (misc.go:68) *)
Definition BR (rulePadding : bool) (kw : string) (op : oparg) (ex : option expr) : rule :=
  on_cond (fun c => with_pad (with_quoted c true) rulePadding)
    (br_set_expression ex (br_set_operator op (br_set_keyword kw (br_init None)))).

(* a history of calls, every call made on the value the previous one returned *)
Inductive bcall := BInit | BKeyword (kw : string) | BOperator (op : oparg) | BExpression (e : option expr)
                 | BParen (b : bool) | BNoPadding (b : bool) | BQuoteStyle (style : Z).
Definition br_step (r : rule) (c : bcall) : rule :=
  match c with
  | BInit => br_init r
  | BKeyword kw => br_set_keyword kw r
  | BOperator op => br_set_operator op r
  | BExpression e => br_set_expression e r
  | BParen b => br_paren b r
  | BNoPadding b => br_nopadding b r
  | BQuoteStyle s => br_set_quote_style s r
  end.
Definition br_run (r : rule) (h : list bcall) : rule := fold_left br_step h r.

(* ---------------- target rules ---------------- *)
(* target.go:459-462 Keyword *)
Definition tr_keyword (r : rule) : N := match r with Some c => matchTKW (c_kw c) | None => 0%N end.
(* target.go:209-217 Init *)
Definition tr_init (r : rule) : rule := br_init r.
(* target.go:392-401 SetKeyword *)
Definition tr_set_keyword (kw : kwarg) (r : rule) : rule :=
  match kw with
  | KStr s => on_cond (fun c => with_kw c (tkw_string (matchTKW s))) r
  | KBind n => on_cond (fun c => with_kw c (tkw_string (matchTKW (bkw_string n)))) r
  | KTarget n => on_cond (fun c => with_kw c (tkw_string (matchTKW (tkw_string n)))) r
  | KOther => r
  end.
(* target.go:406-440 SetOperator *)
Definition tr_set_operator (op : oparg) (r : rule) : rule :=
  let cop := op_arg op in
  if (cop =? 0)%N then r
  else if (negb (cop =? Eq)%N && negb (keywordAllowsComparisonOperator (KTarget (tr_keyword r)) op))%bool then r
  else on_cond (fun c => with_op c cop) r.
(* target.go:445-454 SetExpression: initialises a zero receiver *)
Definition tr_set_expression (e : option expr) (r : rule) : rule :=
  on_cond (fun c => with_quoted (with_ex c e) true) (br_init r).
(* target.go:320-327 NoPadding(state) *)
Definition tr_nopadding (b : bool) (r : rule) : rule := on_cond (fun c => with_pad c (negb b)) r.
(* target.go:343-387 SetQuoteStyle *)
Definition tr_set_quote_style (style : Z) (r : rule) : rule :=
  match r with
  | None => None
  | Some c =>
      let key := tr_keyword r in
      let lst (k : lkind) (own : bool) (sliced : bool) (vals : list string) :=
        Some (with_quoted (with_ex c (Some (XList k (if own then list_style style vals else sliced) vals)))
                          (negb (style =? MultivalSliceQuotes)%Z)) in
      match c_ex c with
      | Some (XList LTargetDN sliced vals) =>
          lst LTargetDN ((key =? Target) || (key =? TargetTo) || (key =? TargetFrom))%N%bool sliced vals
      | Some (XList LAttrs sliced vals) => lst LAttrs (key =? TargetAttr)%N sliced vals
      | Some (XList LOids sliced vals) => lst LOids ((key =? TargetExtOp) || (key =? TargetCtrl))%N%bool sliced vals
      | _ => Some (with_quoted c true)
      end
  end.
(* target.go:239-254 Valid, for an operator that SetOperator of this package stored;
   operators stored by the parser are treated in MOper.v *)
Definition tr_valid (r : rule) : bool :=
  match r with
  | None => false
  | Some c =>
      keywordAllowsComparisonOperator (KStr (c_kw c))
        (match c_op c with Some n => OCop n | None => OOther end) && cond_valid c
  end.
(* target.go:304-315 String: the rule is made parenthetical first *)
Definition tr_string (r : rule) : string :=
  match r with Some c => cond_string (with_paren c true) | None => "" end.
(* target.go:188-234 TR, newTargetRule *)
Definition TR (rulePadding : bool) (kw : kwarg) (op : oparg) (ex : option expr) : rule :=
  on_cond (fun c => with_pad (with_paren (with_quoted c true) true) rulePadding)
    (tr_set_expression ex (tr_set_operator op (tr_set_keyword kw (tr_init None)))).

Inductive tcall := TInit | TKeyword (kw : kwarg) | TOperator (op : oparg) | TExpression (e : option expr)
                 | TNoPadding (b : bool) | TQuoteStyle (style : Z).
Definition tr_step (r : rule) (c : tcall) : rule :=
  match c with
  | TInit => tr_init r
  | TKeyword kw => tr_set_keyword kw r
  | TOperator op => tr_set_operator op r
  | TExpression e => tr_set_expression e r
  | TNoPadding b => tr_nopadding b r
  | TQuoteStyle s => tr_set_quote_style s r
  end.
Definition tr_run (r : rule) (h : list tcall) : rule := fold_left tr_step h r.

(* ---------------- lists of target rules ---------------- *)
(* target.go:459-462 with kw.go:130-136: the name of a rule's keyword *)
Definition tr_kwname (r : rule) : string := tkw_string (tr_keyword r).
(* target.go:712-736 contains, for the text of a keyword *)
Definition trs_contains (l : list rule) (candidate : string) : bool :=
  existsb (fun y => eqfold (tr_kwname y) candidate) l.
(* target.go:675-698 pushPolicy for a TargetRule *)
Definition trs_policy (l : list rule) (r : rule) : bool :=
  match r with
  | None => false
  | Some _ => negb (matchTKW (tr_kwname r) =? 0)%N && negb (trs_contains l (tr_kwname r))
  end.
(* what can be pushed: a TargetRule or a value of another type, which is refused *)
Inductive trarg := TRule (r : rule) | TOther.
(* target.go:524-553 TRs: a stack of capacity nine; 598-601 Push *)
Definition trs_push1 (l : list rule) (x : trarg) : list rule :=
  match x with
  | TRule r => push1 (fun l r => (List.length l <? 9)%nat && trs_policy l r) l r
  | TOther => l
  end.
Definition trs_push (stop : bool) (l : list rule) (xs : list trarg) : list rule := push_many stop trs_push1 l xs.
(* target.go:608-612 Pop *)
Inductive trscall := TRPush (xs : list trarg) | TRPop.
Definition trs_step (stop : bool) (l : list rule) (c : trscall) : list rule :=
  match c with TRPush xs => trs_push stop l xs | TRPop => pop l end.
Definition trs_run (stop : bool) (init : list trarg) (h : list trscall) : list rule :=
  fold_left (trs_step stop) h (trs_push stop [] init).
(* target.go:560-562 String: no delimiter between the rules; 642-660 NoPadding
   puts a blank between them *)
Definition trs_string (spaced : bool) (l : list rule) : string :=
  join (if spaced then " " else "") (map tr_string l).
