(* Model of the reading methods of BindContext (/repo/bind.go:1073-1135), of
   BindRules.Traverse's result, of the reading methods of TargetRule
   (/repo/target.go) and of OID with any Keyword (/repo/oid.go).  Definitions only. *)
From Coq Require Import String Ascii List PeanoNat NArith ZArith Bool.
From Verif Require Import GoStr MMisc MLists MKw MRule MTree MAci MInfo.
Import ListNotations.
Open Scope string_scope.

(* bind.go:267-269, 406-408 Kind *)
Definition bc_kind (b : bctx) : string := match b with BCRule _ => "condition" | BCStack _ => "stack" end.
(* bind.go:390-392, 816-818 IsZero: go-stackage, an instance that was never initialised *)
Definition bc_isZero (b : bctx) : bool :=
  match b with BCRule None => true | BCRule (Some _) => false | BCStack None => true | BCStack (Some _) => false end.
(* bind.go:276-281, 847-852 Len.  A [tree] that is a Leaf is not a BindRules value. *)
Definition bc_len (b : bctx) : nat :=
  match b with
  | BCRule None => 0
  | BCRule (Some _) => 1
  | BCStack (Some (Stk _ _ _ _ ks)) => List.length ks
  | BCStack _ => 0
  end.
(* a member of a stack as a BindContext *)
Definition bc_member (t : tree) : bctx :=
  match t with Leaf c => BCRule (Some c) | Stk _ _ _ _ _ => BCStack (Some t) end.
(* bind.go:253-255, 937-948 Index at a position that is not negative; None is the nil
   interface.  Past the end go-stackage finds nothing. *)
Definition bc_index (b : bctx) (i : nat) : option bctx :=
  match b with
  | BCRule r => Some (BCRule r)
  | BCStack (Some (Stk _ _ _ _ ks)) =>
      match nth_error ks i with Some t => Some (bc_member t) | None => None end
  | BCStack _ => None
  end.
(* bind.go:288-290, 857-862 IsNesting; go-stackage reports whether one of the members
   is itself a stack (bind_test.go:743-760) *)
Definition bc_isNesting (b : bctx) : bool :=
  match b with
  | BCStack (Some (Stk _ _ _ _ ks)) => existsb (fun t => match t with Stk _ _ _ _ _ => true | Leaf _ => false end) ks
  | _ => false
  end.
(* bind.go:303-305, 969-971 IsParen *)
Definition bc_isParen (b : bctx) : bool :=
  match b with
  | BCRule (Some c) => c_paren c
  | BCStack (Some (Stk _ p _ _ _)) => p
  | _ => false
  end.
(* bind.go:425, 464, 503: the category And, Or and Not set *)
Definition word_category (w : word) : string := match w with WAnd => "and" | WOr => "or" | WNot => "not" end.
Definition uninitialized_bindrules : string := "<uninitialized_bindrules>".
(* bind.go:333-338, 837-842 Category *)
Definition bc_category (b : bctx) : string :=
  match b with
  | BCRule None => ""
  | BCRule (Some c) => bkw_string (br_keyword (Some c))
  | BCStack (Some (Stk w _ _ _ _)) => word_category w
  | BCStack _ => uninitialized_bindrules
  end.
(* bind.go:367-371, 867-870 Keyword.  [nocat] is what go-stackage gives as the category
   of a zero Stack. *)
Definition bc_keyword (nocat : string) (b : bctx) : N :=
  match b with
  | BCRule r => br_keyword r
  | BCStack (Some (Stk w _ _ _ _)) => matchBKW (word_category w)
  | BCStack _ => matchBKW nocat
  end.
(* bind.go:1137, 323-328, 830-832 ID.  [setid] is the identifier go-stackage holds for
   the rule: BR sets bindRuleID (bind.go:142), Init alone does not. *)
Definition bindRuleID : string := "bind".
Definition bc_id (setid : string) (b : bctx) : string :=
  match b with
  | BCRule None => bindRuleID
  | BCRule (Some _) => setid
  | BCStack _ => bindRuleID
  end.
(* bind.go:1004-1020 Traverse: [found] is what go-stackage returns (the value and ok),
   a value of type BindRule or BindRules, a bare Condition, or anything else *)
Inductive anyval := VCtx (b : bctx) | VCondition (c : rule) | VOther.
Definition brs_traverse (found : anyval * bool) : option bctx :=
  let B := if snd found then
             match fst found with
             | VCtx b => Some b
             | VCondition c => Some (BCRule c)
             | VOther => Some (BCRule None)
             end
           else None in
  match B with None => Some (BCStack None) | Some b => Some b end.
(* bind.go:246-248 BindRule.Traverse *)
Definition br_traverse (r : rule) : option bctx := Some (BCRule r).

(* target.go:261-266 Len, 271-273 Kind, 285-290 Category, 295-297 ID *)
Definition tr_len (r : rule) : nat := match r with None => 0 | Some _ => 1 end.
Definition tr_kind (r : rule) : string := "condition".
Definition tr_category (r : rule) : string := match r with None => "" | Some _ => tkw_string (tr_keyword r) end.
Definition tr_id (r : rule) : string := "target".

(* oid.go:184-187 OID: the assertion kw.(TargetKeyword) panics on a BindKeyword and on nil *)
Inductive keyword := KWBind (n : N) | KWTarget (n : N) | KWNil.
Section Oid.
Variable dotnot : string -> option string.
Definition OIDof (x : oidarg) (kw : keyword) : out (option oid) :=
  match kw with
  | KWTarget k => Gives (newOID dotnot k [x])
  | KWBind _ | KWNil => Panics
  end.
End Oid.
